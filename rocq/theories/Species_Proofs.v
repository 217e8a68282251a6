(** Proofs about classification, matrices and total reactions. *)
From Coq Require Import String Ascii List ZArith Bool Arith Lia Permutation Sorted.
Import ListNotations.
From Verif Require Import PyBase PyBaseFacts Regex RegexFacts Rxn_Model Rxn_Spec Rxn_Proofs
  Rxn_Count Rxn_More Species_Model Species_Spec.

(** ** Names of parsed formulas *)

Lemma digits_prefix D B ds sp rest :
  forallb is_digit D = true -> stops is_digit B ->
  forallb is_digit ds = true ->
  D ++ B = ds ++ sp ++ "_"%char :: rest ->
  exists sp1, B = sp1 ++ "_"%char :: rest /\ exists D1, sp = D1 ++ sp1.
Proof.
  revert ds sp; induction D as [|d D IH]; intros ds sp HD HB Hds H.
  - destruct ds as [|x ds].
    + exists sp. split; [exact H|now exists []].
    + cbn [app] in H. subst B. cbn in HB, Hds. apply andb_true_iff in Hds as [Hx _]. congruence.
  - cbn [forallb] in HD. apply andb_true_iff in HD as [Hd HD].
    destruct ds as [|x ds]; cbn [app] in H.
    + destruct sp as [|y sp]; cbn [app] in H.
      * injection H as -> _. discriminate.
      * injection H as <- H. destruct (IH [] sp HD HB eq_refl H) as (sp1 & H1 & D1 & ->).
        exists sp1. split; auto. now exists (d :: D1).
    + injection H as <- H. cbn [forallb] in Hds. apply andb_true_iff in Hds as [_ Hds].
      now apply (IH ds sp).
Qed.

Lemma rmatch_formula_no_lead t c rest l :
  rmatch formula_regex [] t = (c, rest) :: l ->
  exists ds sp ms site, c = formula_caps ds sp ms site /\ no_lead_digit sp.
Proof.
  intro E.
  assert (Hin : In (c, rest) (rmatch formula_regex [] t)) by (rewrite E; now left).
  apply rmatch_formula_inv in Hin as (ds & sp & ms & site & Ht & Hc & H1 & H2 & H3 & H4 & H5).
  destruct (leading_digits_split t) as (B & HB & HD & Hst & _).
  destruct (digits_prefix (leading_digits t) B ds sp (ms ++ site ++ rest)) as (sp1 & HB1 & D1 & Hsp); auto.
  { rewrite <- HB. exact Ht. }
  assert (Hnl : no_lead_digit sp1).
  { destruct sp1 as [|y sp1]; [exact I|]. rewrite HB1 in Hst. exact Hst. }
  assert (Hsp1 : forallb is_species_char sp1 = true).
  { rewrite Hsp, forallb_app in H2. apply andb_true_iff in H2 as [_ H2]. exact H2. }
  (* the longest digit prefix also leads to a match, which comes first *)
  assert (K : exists c' r' l', rmatch (RGroup 2 (RSeq (RGroup 3 (RStar is_species_char))
                 (RSeq (RChr (Ascii.eqb "_"))
                 (RSeq (RGroup 4 (RStar is_digit))
                       (RGroup 5 (RPlus is_site_char)))))) [(1, leading_digits t)] B = (c', r') :: l').
  { destruct (rmatch (RGroup 2 (RSeq (RGroup 3 (RStar is_species_char))
                 (RSeq (RChr (Ascii.eqb "_"))
                 (RSeq (RGroup 4 (RStar is_digit))
                       (RGroup 5 (RPlus is_site_char)))))) [(1, leading_digits t)] B)
      as [|[c' r'] l'] eqn:EK; eauto.
    exfalso. apply (proj1 (rmatch_nil_iff _ _ _) EK rest).
    constructor. rewrite HB1. eapply den_seq; [constructor; apply den_star; exact Hsp1|].
    eapply den_seq; [apply den_chr; reflexivity|].
    eapply den_seq; [constructor; apply den_star; exact H3|].
    constructor. destruct site as [|x site]; [congruence|]. apply (den_plus _ x site rest). exact H5. }
  destruct K as (c' & r' & l' & K).
  assert (E2 : exists l2, rmatch formula_regex [] t = (c', r') :: l2).
  { unfold formula_regex. rewrite rmatch_group_star.
    destruct (star_rests_stop is_digit (leading_digits t) B HD Hst) as [l3 Hl3].
    assert (Hc1 : consumed t B = leading_digits t) by (rewrite HB at 1; apply consumed_app).
    rewrite <- HB in Hl3. rewrite Hl3.
    cbn [flat_map]. rewrite Hc1, K. cbn [app]. eauto. }
  destruct E2 as [l2 E2]. rewrite E in E2. injection E2 as -> -> _.
  (* the match that starts with the longest digit prefix *)
  assert (Hin2 : In (c', r') (rmatch (RGroup 2 (RSeq (RGroup 3 (RStar is_species_char))
                 (RSeq (RChr (Ascii.eqb "_"))
                 (RSeq (RGroup 4 (RStar is_digit))
                       (RGroup 5 (RPlus is_site_char)))))) [(1, leading_digits t)] B))
    by (rewrite K; now left).
  cbn [rmatch] in Hin2. apply in_map_iff in Hin2 as ([c2 t2] & E3 & Hin2).
  cbn [fst snd] in E3. injection E3 as E3 <-.
  change (In (c2, t2) (rmatch (RSeq (RGroup 3 (RStar is_species_char))
                 (RSeq (RChr (Ascii.eqb "_"))
                 (RSeq (RGroup 4 (RStar is_digit))
                       (RGroup 5 (RPlus is_site_char))))) [(1, leading_digits t)] B)) in Hin2.
  rewrite rmatch_group_star in Hin2. apply in_flat_map in Hin2 as (r3 & Hr3 & Hin3).
  apply star_rests_In in Hr3 as (sp2 & HB2 & Hsp2).
  rewrite HB2, consumed_app in Hin3.
  exists ds, sp, ms, site. split; auto.
  assert (Hsp3 : sp = sp2).
  { assert (G : cap 3 c2 = Some sp2).
    { destruct r3 as [|u r3]; [destruct Hin3|].
      cbn [rmatch] in Hin3. destruct (Ascii.eqb "_" u); [|destruct Hin3].
      change (In (c2, t2) (rmatch (RSeq (RGroup 4 (RStar is_digit)) (RGroup 5 (RPlus is_site_char)))
            [(3, sp2); (1, leading_digits t)] r3 ++ [])) in Hin3.
      rewrite app_nil_r, rmatch_group_star in Hin3.
      apply in_flat_map in Hin3 as (r4 & _ & Hin3). cbn [rmatch] in Hin3.
      apply in_map_iff in Hin3 as ([c5 t5] & E5 & Hin3). cbn [fst snd] in E5. injection E5 as <- <-.
      apply in_map_iff in Hin3 as (r5 & E5 & _). injection E5 as <- <-. reflexivity. }
    assert (G2 : cap 3 c' = Some sp2) by (rewrite <- E3; exact G).
    rewrite Hc in G2. cbn in G2. congruence. }
  subst sp2. destruct sp as [|y sp]; [exact I|]. rewrite HB2 in Hst. exact Hst.
Qed.

Lemma parse_formula_no_lead s f : parse_formula s = Ok f -> no_lead_digit (f_species f).
Proof.
  unfold parse_formula. destruct (search formula_regex s) as [m|] eqn:E; [|discriminate].
  intro H; injection H as <-.
  apply search_from_Some in E as (a & t & l & _ & _ & Hm & _).
  apply rmatch_formula_no_lead in Hm as (ds & sp & ms & site & Hc & Hn).
  unfold group_text, group. rewrite Hc. exact Hn.
Qed.

(** The formula was read from some text. *)
Definition readable (f : formula) : Prop := exists s, parse_formula s = Ok f.

Lemma after_digits_site ms site :
  forallb is_digit ms = true -> forallb is_site_char site = true -> site <> [] ->
  after_digits (ms ++ site) = site /\ leading_digits (ms ++ site) = ms.
Proof.
  intros H1 H2 Hn. induction ms as [|c ms IH].
  - destruct site as [|x site]; [congruence|]. cbn [app after_digits leading_digits].
    cbn [forallb] in H2. apply andb_true_iff in H2 as [Hx _].
    apply site_not_digit in Hx. now rewrite Hx.
  - cbn [forallb] in H1. apply andb_true_iff in H1 as [Hc H1].
    cbn [app after_digits leading_digits]. rewrite Hc. destruct (IH H1) as [-> ->]. auto.
Qed.

Lemma last_underscore_split sp t :
  ~ In "_"%char t ->
  before_last_underscore (sp ++ "_"%char :: t) = sp /\
  after_last_underscore (sp ++ "_"%char :: t) = t.
Proof.
  intro Ht. assert (E : has_char "_" t = false).
  { destruct (has_char "_" t) eqn:E; auto. apply has_char_In in E. contradiction. }
  induction sp as [|c sp IH]; cbn [app before_last_underscore after_last_underscore].
  - now rewrite E.
  - assert (E2 : has_char "_" (sp ++ "_"%char :: t) = true).
    { apply has_char_In. apply in_or_app. right. now left. }
    rewrite E2. destruct IH as [-> ->]. auto.
Qed.

Lemma readable_name f :
  readable f ->
  exists ms, f_species_site f = f_species f ++ "_"%char :: ms ++ f_site f /\
    f_nsite f = int_or_1 ms /\ forallb is_digit ms = true /\
    forallb is_species_char (f_species f) = true /\ no_lead_digit (f_species f) /\
    f_site f <> [] /\ forallb is_site_char (f_site f) = true.
Proof.
  intros [s H]. pose proof (parse_formula_no_lead s f H) as Hn.
  apply parse_formula_inv in H as (b & ds & ms & a & _ & _ & E & _ & N & _ & S & M & Z & T).
  exists ms. auto 8.
Qed.

Lemma readable_name_parts f :
  readable f ->
  before_last_underscore (f_species_site f) = f_species f /\
  after_digits (after_last_underscore (f_species_site f)) = f_site f /\
  leading_number (after_last_underscore (f_species_site f)) = f_nsite f.
Proof.
  intro R. destruct (readable_name f R) as (ms & E & N & M & _ & _ & Z & T).
  rewrite E. destruct (last_underscore_split (f_species f) (ms ++ f_site f)) as [-> ->].
  { now apply no_underscore_digits_site. }
  destruct (after_digits_site ms (f_site f) M T Z) as [-> D].
  repeat split; auto. unfold leading_number. rewrite D, N. now destruct ms.
Qed.

Lemma name_atoms_formula x f : readable f -> name_atoms x (f_species_site f) = atoms_in_species x (f_species f).
Proof. intro R. unfold name_atoms. now destruct (readable_name_parts f R) as [-> _]. Qed.

Lemma name_occupies_formula s f :
  readable f -> name_occupies s (f_species_site f) = if str_eqb (f_site f) s then f_nsite f else 0%Z.
Proof.
  intro R. unfold name_occupies. destruct (readable_name_parts f R) as (_ & -> & ->). reflexivity.
Qed.

Lemma rxn_formula_list_readable e fls st f :
  rxn_formula_list e = Ok fls -> In st fls -> In f st -> readable f.
Proof.
  unfold rxn_formula_list. destruct (rxn_tolist e) as [sts|]; cbn [bind]; [|discriminate].
  intros H Hst Hf. apply mapM_ok_iff in H.
  assert (exists t, state_formulas t = Ok st) as [t Ht].
  { clear Hf. induction H as [|x y l ys Hxy H IH]; [destruct Hst|].
    destruct Hst as [<-|Hst]; eauto. }
  unfold state_formulas in Ht. apply mapM_ok_iff in Ht. clear H Hst.
  induction Ht as [|x y l ys Hxy Ht IH]; [destruct Hf|].
  destruct Hf as [<-|Hf]; auto. now exists x.
Qed.

(** ** Classification *)

Definition one (b : bool) (f : formula) : list str := if b then [f_species_site f] else [].
Definition is_g (f : formula) := dmem (formula_sites f) (L "g").
Definition is_l (f : formula) := negb (is_g f) && dmem (formula_sites f) (L "l").
Definition is_t (f : formula) :=
  negb (is_g f) && negb (dmem (formula_sites f) (L "l")) && has_char "-" (f_species f).
Definition is_a (f : formula) :=
  negb (is_g f) && negb (dmem (formula_sites f) (L "l")) && negb (has_char "-" (f_species f))
  && negb (has_char "*" (f_species f)).

Lemma add_formula_eq a f :
  add_formula a f =
  {| l_ads := l_ads a ++ one (is_a f) f; l_gas := l_gas a ++ one (is_g f) f;
     l_liq := l_liq a ++ one (is_l f) f; l_site := l_site a ++ site_names_of f;
     l_ts := l_ts a ++ one (is_t f) f; l_rxns := l_rxns a |}.
Proof.
  unfold add_formula, one, is_a, is_l, is_t, is_g.
  destruct (dmem (formula_sites f) (L "g")); cbn [negb andb]; [rewrite !app_nil_r; reflexivity|].
  destruct (dmem (formula_sites f) (L "l")); cbn [negb andb]; [rewrite !app_nil_r; reflexivity|].
  destruct (has_char "-" (f_species f)); cbn [negb andb]; [rewrite !app_nil_r; reflexivity|].
  destruct (has_char "*" (f_species f)); cbn [negb andb]; rewrite !app_nil_r; destruct a; reflexivity.
Qed.

Lemma fold_add_formula fs a :
  fold_left add_formula fs a =
  {| l_ads := l_ads a ++ flat_map (fun f => one (is_a f) f) fs;
     l_gas := l_gas a ++ flat_map (fun f => one (is_g f) f) fs;
     l_liq := l_liq a ++ flat_map (fun f => one (is_l f) f) fs;
     l_site := l_site a ++ flat_map site_names_of fs;
     l_ts := l_ts a ++ flat_map (fun f => one (is_t f) f) fs;
     l_rxns := l_rxns a |}.
Proof.
  revert a; induction fs as [|f fs IH]; intro a; cbn [fold_left flat_map].
  - rewrite !app_nil_r. now destruct a.
  - rewrite IH, add_formula_eq. cbn [l_ads l_gas l_liq l_site l_ts l_rxns].
    now rewrite <- !app_assoc.
Qed.

Lemma add_rxns_iff es a a' :
  add_rxns a es = Ok a' <->
  Forall (fun e => rxn_check_conservation e = Ok true) es /\
  exists rxns, mapM rxn_formula_list es = Ok rxns /\
    let fs := concat (concat rxns) in
    a' = {| l_ads := l_ads a ++ flat_map (fun f => one (is_a f) f) fs;
            l_gas := l_gas a ++ flat_map (fun f => one (is_g f) f) fs;
            l_liq := l_liq a ++ flat_map (fun f => one (is_l f) f) fs;
            l_site := l_site a ++ flat_map site_names_of fs;
            l_ts := l_ts a ++ flat_map (fun f => one (is_t f) f) fs;
            l_rxns := l_rxns a ++ rxns |}.
Proof.
  revert a a'; induction es as [|e es IH]; intros a a'; cbn [add_rxns mapM].
  - split.
    + intro H; injection H as <-. split; auto. exists []. split; auto.
      cbn. rewrite !app_nil_r. now destruct a.
    + intros [_ (rxns & H & E)]. injection H as <-. rewrite E. cbn. rewrite !app_nil_r. now destruct a.
  - unfold add_rxn. destruct (rxn_check_conservation e) as [b|er] eqn:EC; cbn [bind].
    2:{ split; [discriminate|]. intros [F _]. inversion F; congruence. }
    apply check_result in EC as Eb. subst b.
    destruct (rxn_formula_list e) as [fls|er] eqn:EF; cbn [bind].
    2:{ split; [discriminate|]. intros [_ (rxns & H & _)]. discriminate. }
    rewrite IH. rewrite fold_add_formula. cbn [l_ads l_gas l_liq l_site l_ts l_rxns].
    split.
    + intros [F (rxns & H & E)]. split; [now constructor|]. exists (fls :: rxns).
      rewrite H. cbn [bind]. split; auto. cbn in E |- *. rewrite E.
      rewrite concat_app, !flat_map_app, <- !app_assoc. reflexivity.
    + intros [F (rxns & H & E)]. inversion F as [|? ? _ F']; subst. split; auto.
      destruct (mapM rxn_formula_list es) as [rs|]; [|discriminate]. cbn [bind] in H.
      injection H as <-. exists rs. split; auto. cbn.
      rewrite concat_app, !flat_map_app, <- !app_assoc. reflexivity.
Qed.

Lemma parse_rxns_iff es p :
  parse_rxns es = Ok p <->
  Forall (fun e => rxn_check_conservation e = Ok true) es /\
  exists rxns, mapM rxn_formula_list es = Ok rxns /\
    let fs := concat (concat rxns) in
    p = {| l_ads := sorted_set (flat_map (fun f => one (is_a f) f) fs);
           l_gas := sorted_set (flat_map (fun f => one (is_g f) f) fs);
           l_liq := sorted_set (flat_map (fun f => one (is_l f) f) fs);
           l_site := sorted_set (flat_map site_names_of fs);
           l_ts := sorted_set (flat_map (fun f => one (is_t f) f) fs);
           l_rxns := rxns |}.
Proof.
  unfold parse_rxns. destruct (add_rxns empty_lists es) as [a|er] eqn:E; cbn [bind].
  - apply add_rxns_iff in E as [F (rxns & H & E)]. cbn in E. subst a.
    cbn [l_ads l_gas l_liq l_site l_ts l_rxns]. split.
    + intro G; injection G as <-. split; auto. exists rxns. auto.
    + intros [_ (rxns' & H' & ->)]. assert (rxns' = rxns) by congruence. subst. reflexivity.
  - split; [discriminate|]. intros [F (rxns & H & _)].
    assert (G : exists a', add_rxns empty_lists es = Ok a').
    { eexists. apply add_rxns_iff. split; [exact F|]. exists rxns. split; [exact H|]. reflexivity. }
    destruct G as [a' G]. congruence.
Qed.

Lemma occurs_concat f rxns : In f (concat (concat rxns)) <-> occurs f rxns.
Proof.
  unfold occurs. rewrite in_concat. split.
  - intros (st & Hst & Hf). apply in_concat in Hst as (rxn & Hr & Hst). eauto.
  - intros (rxn & st & H1 & H2 & H3). exists st. split; auto. apply in_concat. eauto.
Qed.

Lemma one_In b f n : In n (one b f) <-> b = true /\ n = f_species_site f.
Proof. destruct b; cbn; intuition congruence. Qed.

Lemma dmem_sites f s : dmem (formula_sites f) s = str_eqb s (f_site f).
Proof. unfold dmem, formula_sites. cbn [dget]. now destruct (str_eqb s (f_site f)). Qed.

Lemma is_g_iff f : is_g f = true <-> gas_formula f.
Proof. unfold is_g, gas_formula. rewrite dmem_sites, str_eqb_eq. intuition congruence. Qed.
Lemma is_l_iff f : is_l f = true <-> liquid_formula f.
Proof.
  unfold is_l, is_g, liquid_formula. rewrite !dmem_sites, andb_true_iff, negb_true_iff, str_eqb_neq, str_eqb_eq.
  split; [intuition congruence|]. intros ->. split; [discriminate|reflexivity].
Qed.
Lemma surf_iff f : negb (is_g f) && negb (dmem (formula_sites f) (L "l")) = true <-> surface_site (f_site f).
Proof.
  unfold is_g, surface_site. rewrite !dmem_sites, andb_true_iff, !negb_true_iff, !str_eqb_neq.
  intuition congruence.
Qed.
Lemma has_char_not c s : negb (has_char c s) = true <-> ~ In c s.
Proof.
  rewrite negb_true_iff. split.
  - intros H Hin. apply has_char_In in Hin. congruence.
  - intro H. destruct (has_char c s) eqn:E; auto. apply has_char_In in E. contradiction.
Qed.
Lemma is_t_iff f : is_t f = true <-> ts_formula f.
Proof. unfold is_t, ts_formula. rewrite andb_true_iff, surf_iff, has_char_In. tauto. Qed.
Lemma is_a_iff f : is_a f = true <-> ads_formula f.
Proof.
  unfold is_a, ads_formula. rewrite !andb_true_iff, !has_char_not.
  rewrite <- andb_true_iff, surf_iff. tauto.
Qed.

Lemma class_list (b : formula -> bool) (rule : formula -> Prop) rxns :
  (forall f, b f = true <-> rule f) ->
  lists_names rule rxns (sorted_set (flat_map (fun f => one (b f) f) (concat (concat rxns)))).
Proof.
  intros Hb n. rewrite sorted_set_In, in_flat_map. split.
  - intros (f & Hf & Hn). apply one_In in Hn as [Hn ->]. exists f. rewrite <- occurs_concat, <- Hb. auto.
  - intros (f & Ho & Hr & ->). exists f. rewrite occurs_concat, one_In, Hb. auto.
Qed.

Lemma site_names_of_In f n : In n (site_names_of f) <-> surface_site (f_site f) /\ n = L "*_" ++ f_site f.
Proof.
  unfold site_names_of, formula_sites. cbn [map filter fst].
  change (str_mem (f_site f) [L "g"; L "l"]) with (exclusive_site (f_site f)).
  rewrite <- exclusive_site_spec. destruct (exclusive_site (f_site f)); cbn [negb map In].
  - intuition congruence.
  - intuition congruence.
Qed.

Lemma class_sites rxns : lists_sites rxns (sorted_set (flat_map site_names_of (concat (concat rxns)))).
Proof.
  intro n. rewrite sorted_set_In, in_flat_map. split.
  - intros (f & Hf & Hn). apply site_names_of_In in Hn. exists f. now rewrite <- occurs_concat.
  - intros (f & Ho & Hs & ->). exists f. rewrite occurs_concat, site_names_of_In. auto.
Qed.

Lemma parse_rxns_facts es p :
  parse_rxns es = Ok p ->
  mapM rxn_formula_list es = Ok (l_rxns p) /\
  strictly_increasing (l_ads p) /\ strictly_increasing (l_gas p) /\
  strictly_increasing (l_liq p) /\ strictly_increasing (l_site p) /\ strictly_increasing (l_ts p) /\
  lists_names gas_formula (l_rxns p) (l_gas p) /\
  lists_names liquid_formula (l_rxns p) (l_liq p) /\
  lists_names ts_formula (l_rxns p) (l_ts p) /\
  lists_names ads_formula (l_rxns p) (l_ads p) /\
  lists_sites (l_rxns p) (l_site p).
Proof.
  intro H. apply parse_rxns_iff in H as [F (rxns & H & ->)]. cbn [l_ads l_gas l_liq l_site l_ts l_rxns].
  split; [exact H|].
  do 5 (split; [apply sorted_set_sorted|]).
  split; [apply class_list, is_g_iff|]. split; [apply class_list, is_l_iff|].
  split; [apply class_list, is_t_iff|]. split; [apply class_list, is_a_iff|].
  apply class_sites.
Qed.

Lemma occurs_readable es rxns f :
  mapM rxn_formula_list es = Ok rxns -> occurs f rxns -> readable f.
Proof.
  intros H (rxn & st & H1 & H2 & H3). apply mapM_ok_iff in H.
  induction H as [|e r es rs Her H IH]; [destruct H1|].
  destruct H1 as [<-|H1]; auto. now apply (rxn_formula_list_readable e r st).
Qed.

Lemma same_name_parts f g :
  readable f -> readable g -> f_species_site f = f_species_site g ->
  f_species f = f_species g /\ f_site f = f_site g.
Proof.
  intros [s H] [t H'] E. destruct (species_site_parts s t f g H H' E) as (? & _ & ?). auto.
Qed.

Lemma parse_rxns_disjoint es p n :
  parse_rxns es = Ok p ->
  ~ (In n (l_gas p) /\ In n (l_liq p)) /\ ~ (In n (l_gas p) /\ In n (l_ts p)) /\
  ~ (In n (l_gas p) /\ In n (l_ads p)) /\ ~ (In n (l_liq p) /\ In n (l_ts p)) /\
  ~ (In n (l_liq p) /\ In n (l_ads p)) /\ ~ (In n (l_ts p) /\ In n (l_ads p)).
Proof.
  intro H. destruct (parse_rxns_facts es p H) as (M & _ & _ & _ & _ & _ & G & Q & T & A & _).
  assert (D : forall (r1 r2 : formula -> Prop) l1 l2,
     lists_names r1 (l_rxns p) l1 -> lists_names r2 (l_rxns p) l2 ->
     (forall f g, f_species f = f_species g -> f_site f = f_site g -> r1 f -> r2 g -> False) ->
     ~ (In n l1 /\ In n l2)).
  { intros r1 r2 l1 l2 L1 L2 HD [I1 I2]. apply L1 in I1 as (f & Of & Rf & ->).
    apply L2 in I2 as (g & Og & Rg & E).
    destruct (same_name_parts f g) as [E1 E2]; auto; try (eapply occurs_readable; eauto).
    now apply (HD f g). }
  unfold gas_formula, liquid_formula, ts_formula, ads_formula, surface_site in *.
  repeat split.
  - eapply D; [exact G|exact Q|]. cbn. intros f g _ E H1 H2. rewrite H1, H2 in E. discriminate.
  - eapply D; [exact G|exact T|]. cbn. intros f g _ E H1 [[H2 _] _]. congruence.
  - eapply D; [exact G|exact A|]. cbn. intros f g _ E H1 [[H2 _] _]. congruence.
  - eapply D; [exact Q|exact T|]. cbn. intros f g _ E H1 [[_ H2] _]. congruence.
  - eapply D; [exact Q|exact A|]. cbn. intros f g _ E H1 [[_ H2] _]. congruence.
  - eapply D; [exact T|exact A|]. cbn. intros f g E _ [_ H1] [_ [H2 _]]. rewrite E in H1. contradiction.
Qed.

Lemma parse_rxns_ok_iff es :
  (exists p, parse_rxns es = Ok p) <->
  (forall e, In e es -> rxn_check_conservation e = Ok true /\ exists fls, rxn_formula_list e = Ok fls).
Proof.
  split.
  - intros [p H] e He. apply parse_rxns_iff in H as [F (rxns & M & _)].
    rewrite Forall_forall in F. split; auto. clear F. apply mapM_ok_iff in M.
    induction M as [|x y l ys Hxy M IH]; [destruct He|]. destruct He as [<-|He]; eauto.
  - intro H.
    assert (M : exists rxns, mapM rxn_formula_list es = Ok rxns).
    { induction es as [|e es IH]; [now exists []|].
      destruct (H e (or_introl eq_refl)) as [_ [fls E]].
      destruct IH as [rs E2]; [intros; apply H; now right|].
      exists (fls :: rs). cbn [mapM]. now rewrite E, E2. }
    destruct M as [rxns M]. eexists. apply parse_rxns_iff. split.
    + apply Forall_forall. intros e He. now apply H.
    + exists rxns. split; [exact M|]. reflexivity.
Qed.

Lemma parse_rxns_error es er :
  parse_rxns es = Err er ->
  exists e, In e es /\ (rxn_check_conservation e = Err er \/
                        (rxn_check_conservation e = Ok true /\ rxn_formula_list e = Err er)).
Proof.
  unfold parse_rxns. generalize empty_lists. induction es as [|e es IH]; intro a; cbn [add_rxns bind].
  - discriminate.
  - unfold add_rxn at 1. destruct (rxn_check_conservation e) as [b|er'] eqn:E1; cbn [bind].
    + destruct (rxn_formula_list e) as [fls|er'] eqn:E2; cbn [bind].
      * intro H. apply IH in H as (e' & He & H). exists e'. split; [now right|auto].
      * intro H. injection H as <-. exists e. split; [now left|]. right. split; auto.
        now rewrite (check_result e b E1) in E1.
    + intro H. injection H as <-. exists e. split; [now left|]. auto.
Qed.

Lemma flat_map_perm_In {A B} (g : A -> list B) l1 l2 n :
  (forall x, In x l1 <-> In x l2) -> In n (flat_map g l1) <-> In n (flat_map g l2).
Proof.
  intro H. rewrite !in_flat_map. split; intros (x & Hx & Hn); exists x; split; auto; now apply H.
Qed.

Lemma parse_rxns_perm es1 es2 p1 :
  Permutation es1 es2 -> parse_rxns es1 = Ok p1 ->
  exists p2, parse_rxns es2 = Ok p2 /\
    l_ads p2 = l_ads p1 /\ l_gas p2 = l_gas p1 /\ l_liq p2 = l_liq p1 /\
    l_site p2 = l_site p1 /\ l_ts p2 = l_ts p1 /\ Permutation (l_rxns p1) (l_rxns p2).
Proof.
  intros P H. apply parse_rxns_iff in H as [F (rxns & M & ->)].
  destruct (mapM_perm _ _ _ _ P M) as (rxns2 & M2 & PR).
  eexists. split.
  - apply parse_rxns_iff. split.
    + rewrite Forall_forall in *. intros e He. apply F. now apply (Permutation_in e (Permutation_sym P)).
    + exists rxns2. split; [exact M2|]. reflexivity.
  - cbn [l_ads l_gas l_liq l_site l_ts l_rxns].
    assert (HI : forall f, In f (concat (concat rxns2)) <-> In f (concat (concat rxns))).
    { intro f. rewrite !occurs_concat. unfold occurs.
      split; intros (r & st & H1 & H2 & H3); exists r, st; repeat split; auto;
        [apply (Permutation_in r (Permutation_sym PR))|apply (Permutation_in r PR)]; auto. }
    repeat split; auto; apply sorted_set_ext; intro n; now apply flat_map_perm_In.
Qed.
