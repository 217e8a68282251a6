(** Proofs about the stoichiometry matrices and the total reaction. *)
From Coq Require Import String Ascii List ZArith Bool Arith Lia Permutation Sorted.
Import ListNotations.
From Verif Require Import PyBase PyBaseFacts Regex RegexFacts Rxn_Model Rxn_Spec Rxn_Proofs
  Rxn_Count Rxn_More Species_Model Species_Spec Species_Proofs.

(** ** Rows *)

Lemma row_count_map names (g : str -> Z) name z :
  NoDup names ->
  row_count names (map g names) name z
  = map (fun n => (g n + if str_eqb name n then z else 0)%Z) names.
Proof.
  unfold row_count. induction names as [|n names IH]; intro N; auto.
  inversion N as [|? ? Hn N']; subst. cbn [index_of map].
  destruct (str_eqb_spec name n) as [->|E].
  - cbn [row_add]. f_equal. apply map_ext_in. intros m Hm.
    destruct (str_eqb_spec n m) as [->|]; [contradiction|lia].
  - rewrite Z.add_0_r. specialize (IH N'). destruct (index_of name names) as [j|]; cbn [row_add]; now rewrite <- IH.
Qed.

Lemma row_counts_map names (w : formula -> Z) fs (g : str -> Z) :
  NoDup names ->
  fold_left (fun row f => row_count names row (f_species_site f) (w f)) fs (map g names)
  = map (fun n => (g n + sum_Z (map (fun f => if str_eqb (f_species_site f) n then w f else 0) fs))%Z) names.
Proof.
  intro N. revert g; induction fs as [|f fs IH]; intro g; cbn [fold_left map sum_Z].
  - apply map_ext. intro n. lia.
  - rewrite row_count_map by auto. rewrite IH. apply map_ext. intro n. lia.
Qed.

Lemma sum_Z_opp l : sum_Z (map Z.opp l) = (- sum_Z l)%Z.
Proof. induction l as [|x l IH]; cbn [map sum_Z]; lia. Qed.

Lemma matrix_row_net names rxn first last :
  NoDup names -> lfirst rxn = Ok first -> llast rxn = Ok last ->
  matrix_row names rxn = Ok (map (fun n => net_consumption n first last) names).
Proof.
  intros N H1 H2. unfold matrix_row. rewrite H1, H2. cbn [bind]. f_equal.
  replace (repeat 0%Z (length names)) with (map (fun _ : str => 0%Z) names)
    by (clear; induction names; cbn; congruence).
  rewrite (row_counts_map names f_stoich) by auto.
  rewrite (row_counts_map names (fun f => (- f_stoich f)%Z)) by auto.
  apply map_ext. intro n. unfold net_consumption, total_of_species.
  rewrite <- Z.add_opp_r, <- sum_Z_opp, map_map. rewrite Z.add_0_l. f_equal. f_equal.
  apply map_ext. intro f. destruct (str_eqb (f_species_site f) n); reflexivity.
Qed.

Lemma check_nonempty e fls :
  rxn_check_conservation e = Ok true -> rxn_formula_list e = Ok fls -> fls <> [].
Proof.
  unfold rxn_check_conservation, rxn_formula_list. destruct (rxn_tolist e) as [sts|]; cbn [bind]; [|discriminate].
  intros H F ->. destruct sts as [|st sts]; [discriminate|]. apply mapM_length in F. discriminate.
Qed.

Lemma lfirst_ok {A} (l : list A) : l <> [] -> exists x, lfirst l = Ok x.
Proof. destruct l; [congruence|]. cbn. eauto. Qed.
Lemma llast_ok {A} (l : list A) : l <> [] -> exists x, llast l = Ok x.
Proof.
  intro H. destruct (exists_last H) as (l' & x & ->). exists x. apply llast_app.
Qed.
Lemma llast_In {A} (l : list A) x : llast l = Ok x -> In x l.
Proof.
  induction l as [|y l IH]; [discriminate|]. cbn [llast]. destruct l as [|z l].
  - intro H. injection H as ->. now left.
  - intro H. right. auto.
Qed.
Lemma lfirst_In {A} (l : list A) x : lfirst l = Ok x -> In x l.
Proof. destruct l; [discriminate|]. cbn. intro H. injection H as ->. now left. Qed.

Lemma parse_rxns_rxn es p rxn :
  parse_rxns es = Ok p -> In rxn (l_rxns p) ->
  exists e, In e es /\ rxn_formula_list e = Ok rxn /\ rxn_check_conservation e = Ok true /\ rxn <> [].
Proof.
  intros H Hin. apply parse_rxns_iff in H as [F (rxns & M & ->)]. cbn [l_rxns] in Hin.
  apply mapM_ok_iff in M. rewrite Forall_forall in F.
  assert (exists e, In e es /\ rxn_formula_list e = Ok rxn) as (e & He & E).
  { clear F. induction M as [|x y l ys Hxy M IH]; [destruct Hin|].
    destruct Hin as [<-|Hin]; [exists x; split; auto; now left|].
    destruct (IH Hin) as (e & He & E). exists e. split; auto. now right. }
  exists e. repeat split; auto. apply (check_nonempty e); auto.
Qed.

(** Column names are distinct. *)
Lemma site_columns_NoDup es p : parse_rxns es = Ok p -> NoDup (l_site p ++ l_ads p).
Proof.
  intro H. destruct (parse_rxns_facts es p H) as (M & SA & SG & SL & SS & ST & _ & _ & _ & A & S).
  assert (D : forall n, In n (l_site p) -> In n (l_ads p) -> False).
  { intros n H1 H2. apply S in H1 as (f & _ & _ & ->). apply A in H2 as (g & Og & [_ [_ Hg]] & E).
    assert (R : readable g) by (eapply occurs_readable; eauto).
    destruct (readable_name g R) as (ms & En & _). rewrite En in E.
    destruct (f_species g) as [|c sp]; cbn in E; [discriminate|].
    injection E as <- _. apply Hg. now left. }
  apply StronglySorted_NoDup in SA, SS.
  clear -SA SS D. induction (l_site p) as [|x l IH]; auto. inversion SS; subst.
  cbn [app]. constructor.
  - rewrite in_app_iff. intros [I|I]; [auto|]. apply (D x); auto. now left.
  - apply IH; auto. intros n I1 I2. apply (D n); auto. now right.
Qed.

Lemma reapro_columns_NoDup es p : parse_rxns es = Ok p -> NoDup (l_gas p ++ l_liq p).
Proof.
  intro H. destruct (parse_rxns_facts es p H) as (M & SA & SG & SL & SS & ST & _).
  assert (D : forall n, In n (l_gas p) -> In n (l_liq p) -> False).
  { intros n H1 H2. destruct (parse_rxns_disjoint es p n H) as [D _]. auto. }
  apply StronglySorted_NoDup in SG, SL.
  clear -SG SL D. induction (l_gas p) as [|x l IH]; auto. inversion SG; subst.
  cbn [app]. constructor.
  - rewrite in_app_iff. intros [I|I]; [auto|]. apply (D x); auto. now left.
  - apply IH; auto. intros n I1 I2. apply (D n); auto. now right.
Qed.

Lemma mapM_rows names rxns :
  NoDup names -> (forall r, In r rxns -> r <> []) ->
  exists m, mapM (matrix_row names) rxns = Ok m /\ length m = length rxns /\
    forall i rxn first last, nth_error rxns i = Some rxn ->
      lfirst rxn = Ok first -> llast rxn = Ok last ->
      nth_error m i = Some (map (fun n => net_consumption n first last) names).
Proof.
  intros N H. induction rxns as [|r rs IH].
  - exists []. repeat split; auto. intros [|i] ? ? ? E; discriminate.
  - destruct IH as (m & E & El & Ei); [intros; apply H; now right|].
    destruct (lfirst_ok r) as [first Hf]; [apply H; now left|].
    destruct (llast_ok r) as [last Hl]; [apply H; now left|].
    eexists. cbn [mapM]. rewrite (matrix_row_net names r first last) by auto. rewrite E. cbn [bind].
    split; [reflexivity|]. split; [cbn; now rewrite El|].
    intros [|i] rxn f l Hn H1 H2; cbn [nth_error] in *.
    + injection Hn as <-. assert (f = first) by congruence. assert (l = last) by congruence. subst. reflexivity.
    + now apply (Ei i rxn).
Qed.

Lemma matrices_net es p :
  parse_rxns es = Ok p ->
  exists sm rm, stoichiometry_matrices p = Ok (sm, rm) /\
    length sm = length es /\ length rm = length es /\
    forall i rxn first last, nth_error (l_rxns p) i = Some rxn ->
      lfirst rxn = Ok first -> llast rxn = Ok last ->
      nth_error sm i = Some (map (fun n => net_consumption n first last) (l_site p ++ l_ads p)) /\
      nth_error rm i = Some (map (fun n => net_consumption n first last) (l_gas p ++ l_liq p)).
Proof.
  intro H. pose proof (site_columns_NoDup es p H) as N1. pose proof (reapro_columns_NoDup es p H) as N2.
  assert (HN : forall r, In r (l_rxns p) -> r <> []).
  { intros r Hr. now destruct (parse_rxns_rxn es p r H Hr) as (e & _ & _ & _ & ?). }
  destruct (mapM_rows _ _ N1 HN) as (sm & E1 & L1 & I1).
  destruct (mapM_rows _ _ N2 HN) as (rm & E2 & L2 & I2).
  destruct (parse_rxns_facts es p H) as (M & _). apply mapM_length in M.
  exists sm, rm. unfold stoichiometry_matrices. rewrite E1. cbn [bind]. rewrite E2. cbn [bind].
  repeat split; try congruence.
  - now apply (I1 i rxn).
  - now apply (I2 i rxn).
Qed.

Lemma row_reversal names e e' fls fls' :
  NoDup names -> fls <> [] ->
  rxn_revert e = Ok e' -> rxn_formula_list e = Ok fls -> rxn_formula_list e' = Ok fls' ->
  exists row, matrix_row names fls = Ok row /\ matrix_row names fls' = Ok (map Z.opp row).
Proof.
  intros N Hn R F F'. rewrite (revert_formula_list e e' fls R F) in F'. injection F' as <-.
  destruct (lfirst_ok fls Hn) as [first Hf]. destruct (llast_ok fls Hn) as [last Hl].
  eexists. split; [apply matrix_row_net; eauto|].
  rewrite (matrix_row_net names (rev fls) last first); auto.
  - f_equal. rewrite map_map. apply map_ext. intro n. unfold net_consumption. lia.
  - now rewrite lfirst_rev.
  - now rewrite llast_rev.
Qed.

(** ** Conservation in the rows *)

Lemma weighted_app w n1 n2 r1 r2 :
  length n1 = length r1 -> weighted w (n1 ++ n2) (r1 ++ r2) = (weighted w n1 r1 + weighted w n2 r2)%Z.
Proof.
  revert r1; induction n1 as [|n n1 IH]; intros [|z r1] H; try discriminate; cbn [app weighted]; [lia|].
  rewrite IH by (cbn in H; lia). lia.
Qed.

Lemma weighted_map w g names : weighted w names (map g names) = sum_Z (map (fun n => (w n * g n)%Z) names).
Proof. induction names as [|n names IH]; cbn [weighted map sum_Z]; auto. now rewrite IH. Qed.

(** Summing over the columns a formula contributes to. *)
Lemma sum_over_names (w : str -> Z) names name z :
  NoDup names ->
  sum_Z (map (fun n => (w n * if str_eqb name n then z else 0)%Z) names)
  = if str_mem name names then (w name * z)%Z else 0%Z.
Proof.
  induction names as [|n names IH]; intro N; auto. inversion N as [|? ? Hn N']; subst.
  cbn [map sum_Z]. rewrite IH by auto. unfold str_mem. cbn [existsb].
  destruct (str_eqb_spec name n) as [->|]; cbn [orb].
  - change (existsb (str_eqb n) names) with (str_mem n names).
    apply str_mem_not_In in Hn. rewrite Hn. lia.
  - change (existsb (str_eqb name) names) with (str_mem name names). lia.
Qed.

Lemma sum_Z_add {A} (f g : A -> Z) l :
  sum_Z (map (fun x => (f x + g x)%Z) l) = (sum_Z (map f l) + sum_Z (map g l))%Z.
Proof. induction l as [|x l IH]; cbn [map sum_Z]; lia. Qed.

Lemma weighted_total (w : str -> Z) names fs :
  NoDup names ->
  sum_Z (map (fun n => (w n * total_of_species n fs)%Z) names)
  = sum_Z (map (fun f => if str_mem (f_species_site f) names
                         then (w (f_species_site f) * f_stoich f)%Z else 0%Z) fs).
Proof.
  intro N. induction fs as [|f fs IH]; unfold total_of_species in *; cbn [map sum_Z].
  - clear. induction names as [|n names IH]; cbn [map sum_Z]; [auto|lia].
  - rewrite <- IH. rewrite <- (sum_over_names w names) by auto. rewrite <- sum_Z_add.
    f_equal. apply map_ext. intro n. lia.
Qed.

Lemma weighted_net (w : str -> Z) names first last :
  NoDup names ->
  weighted w names (map (fun n => net_consumption n first last) names)
  = (sum_Z (map (fun f => if str_mem (f_species_site f) names
                          then (w (f_species_site f) * f_stoich f)%Z else 0%Z) first)
     - sum_Z (map (fun f => if str_mem (f_species_site f) names
                          then (w (f_species_site f) * f_stoich f)%Z else 0%Z) last))%Z.
Proof.
  intro N. rewrite weighted_map, <- !weighted_total by auto.
  clear N. unfold net_consumption. induction names as [|n names IH]; cbn [map sum_Z]; lia.
Qed.

(** Where the formulas of the end states are tabulated. *)
Lemma mem_iff_bool (b : bool) (P : Prop) : (b = true <-> P) -> P -> b = true.
Proof. tauto. Qed.

Section Columns.
  Variables (es : list str) (p : lists) (H : parse_rxns es = Ok p).

  Lemma formula_columns rxn st f :
    In rxn (l_rxns p) -> In st rxn -> In f st ->
    (gas_formula f \/ liquid_formula f ->
       In (f_species_site f) (l_gas p ++ l_liq p)) /\
    (surface_site (f_site f) -> ~ In (f_species_site f) (l_gas p ++ l_liq p)) /\
    (~ surface_site (f_site f) -> ~ In (f_species_site f) (l_site p ++ l_ads p)) /\
    (surface_site (f_site f) -> ads_formula f \/ f_species_site f = L "*_" ++ f_site f ->
       In (f_species_site f) (l_site p ++ l_ads p)).
  Proof.
    intros Hr Hs Hf. destruct (parse_rxns_facts es p H) as (M & _ & _ & _ & _ & _ & G & Q & T & A & S).
    assert (O : occurs f (l_rxns p)) by (exists rxn, st; auto).
    assert (Rf : readable f) by (eapply occurs_readable; eauto).
    repeat split.
    - intros [Hg|Hl]; apply in_or_app; [left; apply G|right; apply Q]; eauto.
    - intros [S1 S2] I. apply in_app_or in I as [I|I].
      + apply G in I as (g & Og & Rg & E). destruct (same_name_parts f g) as [_ E2]; auto.
        { eapply occurs_readable; eauto. } unfold gas_formula in Rg. congruence.
      + apply Q in I as (g & Og & Rg & E). destruct (same_name_parts f g) as [_ E2]; auto.
        { eapply occurs_readable; eauto. } unfold liquid_formula in Rg. congruence.
    - intros NS I. apply NS. apply in_app_or in I as [I|I].
      + apply S in I as (g & Og & Sg & E).
        assert (Rg : readable g) by (eapply occurs_readable; eauto).
        destruct (readable_name f Rf) as (ms & En & _ & Dm & _ & _ & Zf & Tf).
        destruct (readable_name g Rg) as (mg & Eg & _ & _ & _ & _ & Zg & Tg).
        rewrite En in E. change (L "*_" ++ f_site g) with (["*"%char] ++ "_"%char :: f_site g) in E.
        apply last_underscore_unique in E as [_ E].
        * assert (E3 : [] ++ f_site g = ms ++ f_site f) by (cbn; congruence).
          apply digits_site_unique in E3 as [_ <-]; auto.
        * now apply no_underscore_digits_site.
        * now apply (no_underscore_digits_site [] (f_site g)).
      + apply A in I as (g & Og & [Sg _] & E). destruct (same_name_parts f g) as [_ E2]; auto.
        { eapply occurs_readable; eauto. } congruence.
    - intros Sf [Ha|E]; apply in_or_app; [right; apply A|left; apply S]; eauto.
  Qed.

  Lemma end_states rxn first last :
    In rxn (l_rxns p) -> lfirst rxn = Ok first -> llast rxn = Ok last ->
    balanced first last.
  Proof.
    intros Hr H1 H2. destruct (parse_rxns_rxn es p rxn H Hr) as (e & _ & F & C & Hn).
    destruct (check_parsed e rxn F Hn) as [[A _]|[_ B]]; [|congruence].
    apply lfirst_In in H1. apply llast_In in H2. now apply A.
  Qed.

  Lemma surface_dec s : {surface_site s} + {~ surface_site s}.
  Proof.
    unfold surface_site. destruct (str_dec s (L "g")); [right; tauto|].
    destruct (str_dec s (L "l")); [right; tauto|left; tauto].
  Qed.

  Lemma not_surface f : ~ surface_site (f_site f) -> gas_formula f \/ liquid_formula f.
  Proof.
    unfold surface_site, gas_formula, liquid_formula. intro N.
    destruct (str_dec (f_site f) (L "g")); auto. destruct (str_dec (f_site f) (L "l")); auto.
    exfalso. apply N. auto.
  Qed.

  Lemma state_atoms rxn st x :
    In rxn (l_rxns p) -> In st rxn -> tabulated st ->
    (sum_Z (map (fun f => if str_mem (f_species_site f) (l_site p ++ l_ads p)
                          then (name_atoms x (f_species_site f) * f_stoich f)%Z else 0%Z) st)
     + sum_Z (map (fun f => if str_mem (f_species_site f) (l_gas p ++ l_liq p)
                          then (name_atoms x (f_species_site f) * f_stoich f)%Z else 0%Z) st))%Z
    = total_atoms x st.
  Proof.
    intros Hr Hs HT. unfold total_atoms. rewrite <- sum_Z_add. f_equal. apply map_ext_in.
    intros f Hf. destruct (formula_columns rxn st f Hr Hs Hf) as (C1 & C2 & C3 & C4).
    assert (Rf : readable f).
    { destruct (parse_rxns_facts es p H) as (M & _). eapply occurs_readable; [exact M|]. exists rxn, st. auto. }
    rewrite (name_atoms_formula x f Rf).
    destruct (surface_dec (f_site f)) as [S|S].
    - pose proof (C2 S) as N. pose proof (C4 S (HT f Hf S)) as I.
      apply str_mem_not_In in N. apply str_mem_In in I. rewrite N, I. lia.
    - pose proof (C3 S) as N. pose proof (C1 (not_surface f S)) as I.
      apply str_mem_not_In in N. apply str_mem_In in I. rewrite N, I. lia.
  Qed.

  Lemma state_sites_sum rxn st s :
    In rxn (l_rxns p) -> In st rxn -> tabulated st -> surface_site s ->
    sum_Z (map (fun f => if str_mem (f_species_site f) (l_site p ++ l_ads p)
                          then (name_occupies s (f_species_site f) * f_stoich f)%Z else 0%Z) st)
    = total_sites s st.
  Proof.
    intros Hr Hs HT Ss. unfold total_sites. f_equal. apply map_ext_in.
    intros f Hf. destruct (formula_columns rxn st f Hr Hs Hf) as (C1 & C2 & C3 & C4).
    assert (Rf : readable f).
    { destruct (parse_rxns_facts es p H) as (M & _). eapply occurs_readable; [exact M|]. exists rxn, st. auto. }
    rewrite (name_occupies_formula s f Rf).
    destruct (surface_dec (f_site f)) as [S|S].
    - pose proof (C4 S (HT f Hf S)) as I. apply str_mem_In in I. rewrite I.
      destruct (str_eqb (f_site f) s); lia.
    - pose proof (C3 S) as N. apply str_mem_not_In in N. rewrite N.
      destruct (str_eqb_spec (f_site f) s) as [E|]; auto. exfalso. apply S. now rewrite E.
  Qed.

  Lemma rows_conserve i rxn first last srow rrow sm rm :
    stoichiometry_matrices p = Ok (sm, rm) ->
    nth_error (l_rxns p) i = Some rxn -> lfirst rxn = Ok first -> llast rxn = Ok last ->
    nth_error sm i = Some srow -> nth_error rm i = Some rrow ->
    tabulated first -> tabulated last ->
    (forall x, (weighted (name_atoms x) (l_site p ++ l_ads p) srow
                + weighted (name_atoms x) (l_gas p ++ l_liq p) rrow)%Z = 0%Z) /\
    (forall s, surface_site s -> weighted (name_occupies s) (l_site p ++ l_ads p) srow = 0%Z).
  Proof.
    intros E Hi H1 H2 Es Er T1 T2.
    destruct (matrices_net es p H) as (sm' & rm' & E' & _ & _ & Rows).
    rewrite E in E'. injection E' as <- <-.
    destruct (Rows i rxn first last Hi H1 H2) as [R1 R2].
    assert (srow = map (fun n => net_consumption n first last) (l_site p ++ l_ads p)) as -> by congruence.
    assert (rrow = map (fun n => net_consumption n first last) (l_gas p ++ l_liq p)) as -> by congruence.
    assert (Hr : In rxn (l_rxns p)) by (eapply nth_error_In; eauto).
    pose proof (lfirst_In _ _ H1) as I1. pose proof (llast_In _ _ H2) as I2.
    destruct (end_states rxn first last Hr H1 H2) as [B1 B2].
    pose proof (site_columns_NoDup es p H) as N1. pose proof (reapro_columns_NoDup es p H) as N2.
    split.
    - intro x. rewrite !weighted_net by auto.
      pose proof (state_atoms rxn first x Hr I1 T1). pose proof (state_atoms rxn last x Hr I2 T2).
      specialize (B1 x). lia.
    - intros s Ss. rewrite !weighted_net by auto.
      rewrite (state_sites_sum rxn first s), (state_sites_sum rxn last s) by auto.
      rewrite (B2 s Ss). lia.
  Qed.
End Columns.

(** ** Total reaction *)

Definition keep (b : bool) (nc : str * Z) : list str :=
  if b then [coeff_text (Z.abs (snd nc)) ++ fst nc] else [].

Lemma total_lists_zip names pre coeffs r q :
  NoDup (pre ++ names) ->
  total_lists names (pre ++ names) coeffs = Ok (r, q) ->
  exists cs, length cs = length names /\
    (forall k, k < length names -> nth_error coeffs (length pre + k) = nth_error cs k) /\
    r = flat_map (fun nc => keep (0 <=? snd nc)%Z nc) (combine names cs) /\
    q = flat_map (fun nc => keep (snd nc <? 0)%Z nc) (combine names cs).
Proof.
  revert pre r q; induction names as [|n names IH]; intros pre r q N; cbn [total_lists].
  - intro E. injection E as <- <-. exists []. repeat split; auto. intros k Hk. cbn in Hk. lia.
  - assert (Ei : index_of n (pre ++ n :: names) = Some (length pre)).
    { apply index_of_nth; auto. rewrite nth_error_app2 by lia. now rewrite Nat.sub_diag. }
    rewrite Ei. unfold lindex. destruct (nth_error coeffs (length pre)) as [c|] eqn:Ec; cbn [bind]; [|discriminate].
    change (pre ++ n :: names) with (pre ++ [n] ++ names) in *. rewrite app_assoc in *.
    destruct (total_lists names ((pre ++ [n]) ++ names) coeffs) as [[r' q']|] eqn:E; cbn [bind fst snd]; [|discriminate].
    destruct (IH (pre ++ [n]) r' q' N E) as (cs & Hl & Hn & Hr & Hq).
    assert (Hn' : forall k, k < length (n :: names) ->
       nth_error coeffs (length pre + k) = nth_error (c :: cs) k).
    { intros [|k] Hk; cbn [nth_error].
      - now rewrite Nat.add_0_r.
      - rewrite <- Hn by (cbn in Hk; lia). f_equal. rewrite app_length. cbn. lia. }
    destruct (c <? 0)%Z eqn:Es; intro G; injection G as <- <-; exists (c :: cs);
      (split; [cbn; now rewrite Hl|split; [exact Hn'|]]); cbn [combine flat_map snd].
    + rewrite Es. replace (0 <=? c)%Z with false by lia. cbn [keep app snd fst]. now rewrite Hr, Hq.
    + rewrite Es. replace (0 <=? c)%Z with true by lia. cbn [keep app snd fst].
      rewrite (Z.abs_eq c) by lia. now rewrite Hr, Hq.
Qed.

Lemma coeff_text_digits c : (0 <= c)%Z -> forallb is_digit (coeff_text c) = true /\ int_or_1 (coeff_text c) = c.
Proof.
  intro Hc. unfold coeff_text. destruct (Z.eqb_spec c 1) as [->|Hn]; [split; reflexivity|].
  assert (E : str_of_Z c = dec (Z.to_N c)) by (destruct c; auto; lia).
  rewrite E. split; [apply dec_digits|]. unfold int_or_1.
  destruct (dec (Z.to_N c)) eqn:Ed; [now apply dec_nonnil in Ed|]. rewrite <- Ed, int_of_dec. lia.
Qed.

Definition known (n : str) : Prop := exists f, readable f /\ n = f_species_site f.

Lemma parse_coeff_name c n :
  known n -> (0 <= c)%Z ->
  exists f, parse_formula (coeff_text c ++ n) = Ok f /\ f_stoich f = c /\
            f_species_site f = n /\
            forall x, atoms_in_species x (f_species f) = name_atoms x n.
Proof.
  intros (g & R & ->) Hc. destruct (coeff_text_digits c Hc) as [Hd Hv].
  destruct (readable_name g R) as (ms & E & _ & M & Sp & NL & Z & T).
  pose proof (parse_formula_gen (coeff_text c) (f_species g) ms (f_site g) [] Hd Sp NL M Z T I) as P.
  rewrite app_nil_r in P. rewrite <- E in P.
  eexists. split; [exact P|]. split; [exact Hv|]. split; [reflexivity|]. intro x. cbn [f_species].
  now rewrite name_atoms_formula.
Qed.

Lemma known_chars n : known n -> forallb is_species_char n = true.
Proof.
  intros (g & R & ->). destruct (readable_name g R) as (ms & E & _ & M & Sp & NL & Z & T).
  rewrite E, forallb_app, Sp. cbn [forallb andb]. rewrite forallb_app.
  rewrite (forallb_impl is_digit is_species_char ms digit_species M).
  rewrite (forallb_impl is_site_char is_species_char (f_site g) site_species T). reflexivity.
Qed.

Lemma species_not_space c : is_species_char c = true -> is_space c = false.
Proof. all_ascii c. Qed.
Lemma species_not_angle c : is_species_char c = true -> not_angle c = true.
Proof. all_ascii c. Qed.
Lemma species_not_plus c : is_species_char c = true -> Ascii.eqb c "+" = false.
Proof. all_ascii c. Qed.
