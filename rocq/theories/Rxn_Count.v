(** Proofs about element and site totals, conservation and gas lists. *)
From Coq Require Import String Ascii List ZArith Bool Arith Lia Permutation.
Import ListNotations.
From Verif Require Import PyBase PyBaseFacts Regex RegexFacts Rxn_Model Rxn_Spec Rxn_Proofs.

(** ** The element pattern *)

Fixpoint items (s : str) : list (ascii * str) :=
  match s with
  | [] => []
  | c :: t => if is_site_char c then (c, leading_digits t) :: items t else items t
  end.

Lemma leading_digits_split s :
  exists r, s = leading_digits s ++ r /\ forallb is_digit (leading_digits s) = true /\
            stops is_digit r /\ items r = items s.
Proof.
  induction s as [|c s IH]; simpl.
  - now exists [].
  - destruct (is_digit c) eqn:E; simpl.
    + destruct IH as (r & Hs & Hd & Hr & Hi). exists r. rewrite E.
      rewrite (digit_not_site c E). repeat split; auto. congruence.
    + exists (c :: s). repeat split; auto.
Qed.

Lemma search_sp b s :
  match items s with
  | [] => search_from sp_regex b s = None
  | (c, ds) :: l => exists m, search_from sp_regex b s = Some m /\
      group_text m 1 = [c] /\ group_text m 2 = ds /\
      items (m_rest m) = l /\ length (m_rest m) < length s
  end.
Proof.
  revert b; induction s as [|c t IH]; intro b.
  - reflexivity.
  - cbn [items]. destruct (is_site_char c) eqn:E.
    + destruct (leading_digits_split t) as (r & Ht & Hd & Hr & Hi).
      destruct (star_rests_stop is_digit (leading_digits t) r Hd Hr) as [l Hl].
      assert (R : exists l', rmatch sp_regex [] (c :: t)
                 = ([(2, leading_digits t); (1, [c])], r) :: l').
      { clear Hi IH. revert Ht Hd Hl. generalize (leading_digits t) as ds.
        intros ds -> Hd Hl.
        unfold sp_regex. cbn [rmatch]. rewrite E. cbn [map flat_map fst snd].
        rewrite app_nil_r. rewrite Hl. cbn [map fst snd]. rewrite consumed_app.
        replace (consumed (c :: ds ++ r) (ds ++ r)) with [c]
          by (symmetry; apply (consumed_app [c] (ds ++ r))).
        eauto. }
      destruct R as [l' R].
      exists {| m_before := rev b; m_caps := [(2, leading_digits t); (1, [c])]; m_rest := r |}.
      split; [now apply search_from_first with (l := l')|].
      repeat split; auto. cbn [m_rest length]. rewrite Ht, app_length. lia.
    + rewrite search_from_skip.
      * specialize (IH (c :: b)). destruct (items t) as [|[c' ds] l]; auto.
        destruct IH as (m & H1 & H2 & H3 & H4 & H5). exists m. cbn [length]. repeat split; auto with arith.
      * unfold sp_regex. cbn [rmatch]. now rewrite E.
Qed.

Lemma findall_sp_fuel k s :
  length s < k ->
  map (fun m => (group_text m 1, group_text m 2)) (findall_fuel k sp_regex s)
  = map (fun p => ([fst p], snd p)) (items s).
Proof.
  revert s; induction k as [|k IH]; intros s Hk; [lia|].
  cbn [findall_fuel]. unfold search. pose proof (search_sp [] s) as H.
  destruct (items s) as [|[c ds] l].
  - now rewrite H.
  - destruct H as (m & -> & H1 & H2 & H3 & H4). cbn [map fst snd].
    rewrite H1, H2, IH, H3 by lia. reflexivity.
Qed.

Lemma findall_sp s :
  map (fun m => (group_text m 1, group_text m 2)) (findall sp_regex s)
  = map (fun p => ([fst p], snd p)) (items s).
Proof. apply findall_sp_fuel. lia. Qed.

Lemma findall_sp_values s :
  map (fun m => (group_text m 1, int_or_1 (group_text m 2))) (findall sp_regex s)
  = map (fun p => ([fst p], int_or_1 (snd p))) (items s).
Proof.
  transitivity (map (fun q : str * str => (fst q, int_or_1 (snd q)))
    (map (fun m => (group_text m 1, group_text m 2)) (findall sp_regex s))).
  - now rewrite map_map.
  - rewrite findall_sp. now rewrite map_map.
Qed.

(** ** Adding into a dictionary *)

Definition dval (d : dict Z) (k : str) : Z := match dget d k with Some v => v | None => 0%Z end.
Definition sum_key (k : str) (l : list (str * Z)) : Z :=
  sum_Z (map (fun kn => if str_eqb k (fst kn) then snd kn else 0%Z) l).

Lemma dadd_props d kn :
  NoDup (keys d) ->
  NoDup (keys (dadd d kn)) /\
  (forall k, In k (keys (dadd d kn)) <-> k = fst kn \/ In k (keys d)) /\
  (forall k, dval (dadd d kn) k = (dval d k + if str_eqb k (fst kn) then snd kn else 0)%Z).
Proof.
  intro N. unfold dadd. destruct (dget d (fst kn)) as [v|] eqn:E.
  - repeat split.
    + now apply NoDup_dset.
    + apply keys_dset_In.
    + apply keys_dset_In.
    + intro k. unfold dval. rewrite dget_dset. destruct (str_eqb_spec k (fst kn)) as [->|].
      * now rewrite E.
      * lia.
  - repeat split.
    + now apply NoDup_dset.
    + apply keys_dset_In.
    + apply keys_dset_In.
    + intro k. unfold dval. rewrite dget_dset. destruct (str_eqb_spec k (fst kn)) as [->|].
      * rewrite E. lia.
      * lia.
Qed.

Lemma fold_dadd l d :
  NoDup (keys d) ->
  NoDup (keys (fold_left dadd l d)) /\
  (forall k, In k (keys (fold_left dadd l d)) <-> In k (keys d) \/ In k (map fst l)) /\
  (forall k, dval (fold_left dadd l d) k = (dval d k + sum_key k l)%Z).
Proof.
  revert d; induction l as [|kn l IH]; intros d N; cbn [fold_left].
  - repeat split; auto.
    + simpl. tauto.
    + intro k. unfold sum_key. simpl. lia.
  - destruct (dadd_props d kn N) as (N1 & K1 & V1).
    destruct (IH _ N1) as (N2 & K2 & V2). repeat split; auto.
    + intro H. apply K2 in H. rewrite K1 in H. simpl. intuition congruence.
    + intro H. apply K2. rewrite K1. simpl in H. intuition congruence.
    + intro k. rewrite V2, V1. unfold sum_key. simpl. lia.
Qed.

Lemma dget_val (d : dict Z) k : In k (keys d) -> dget d k = Some (dval d k).
Proof. intro H. apply dget_Some_In in H as [v E]. unfold dval. now rewrite E. Qed.

Lemma dval_absent (d : dict Z) k : ~ In k (keys d) -> dval d k = 0%Z.
Proof. intro H. apply dget_None in H. unfold dval. now rewrite H. Qed.

Lemma dget_ext_iff (d1 d2 : dict Z) :
  (forall k, dget d1 k = dget d2 k) <->
  (forall k, In k (keys d1) <-> In k (keys d2)) /\ (forall k, dval d1 k = dval d2 k).
Proof.
  split.
  - intro H. split; intro k.
    + rewrite !dget_Some_In. now rewrite H.
    + unfold dval. now rewrite H.
  - intros [HK HV] k. destruct (in_dec str_dec k (keys d1)) as [Hi|Hn].
    + rewrite (dget_val d1 k Hi), (dget_val d2 k) by now apply HK. now rewrite HV.
    + pose proof Hn as Hn2. rewrite HK in Hn2. apply dget_None in Hn, Hn2. congruence.
Qed.

(** ** Elements of a species *)

Lemma int_or_1_leading t : int_or_1 (leading_digits t) = leading_number t.
Proof. unfold int_or_1, leading_number. now destruct (leading_digits t). Qed.

Lemma str_eqb_single (x c : ascii) : str_eqb [x] [c] = Ascii.eqb x c.
Proof. simpl. apply andb_true_r. Qed.

Lemma items_sum x s :
  element_letter x = true ->
  sum_key [x] (map (fun p => ([fst p], int_or_1 (snd p))) (items s)) = letter_count x s.
Proof.
  intro Hx. rewrite element_letter_site in Hx.
  induction s as [|c t IH]; auto. cbn [items letter_count].
  destruct (is_site_char c) eqn:E.
  - unfold sum_key in *. cbn [map sum_Z fst snd]. rewrite IH, int_or_1_leading, str_eqb_single.
    rewrite (Ascii.eqb_sym x c). reflexivity.
  - rewrite IH. destruct (Ascii.eqb_spec c x) as [->|]; [congruence|lia].
Qed.

Lemma items_keys k s :
  In k (map fst (map (fun p : ascii * str => ([fst p], int_or_1 (snd p))) (items s))) <->
  exists x, k = [x] /\ element_letter x = true /\ In x s.
Proof.
  rewrite map_map. cbn [fst]. induction s as [|c t IH]; cbn [items].
  - simpl. split; [tauto|]. intros (x & _ & _ & []).
  - destruct (is_site_char c) eqn:E; cbn [map In fst]; rewrite ?IH.
    + split.
      * intros [<-|(x & -> & Hx & Hi)].
        -- exists c. rewrite element_letter_site. auto.
        -- exists x. auto.
      * intros (x & -> & Hx & [->|Hi]); auto. right. eauto.
    + split.
      * intros (x & -> & Hx & Hi). exists x. auto.
      * intros (x & -> & Hx & [->|Hi]); eauto.
        rewrite element_letter_site in Hx. congruence.
Qed.

Lemma species_dict_props sp :
  NoDup (keys (species_elements_dict sp)) /\
  (forall k, In k (keys (species_elements_dict sp)) <-> exists x, k = [x] /\ species_mentions x sp) /\
  (forall x, dval (species_elements_dict sp) [x] = atoms_in_species x sp).
Proof.
  unfold species_elements_dict, species_mentions, atoms_in_species.
  destruct (str_eqb_spec sp (L "*")) as [->|Hn].
  - repeat split.
    + constructor.
    + intros [].
    + intros (x & _ & H & _). congruence.
  - rewrite findall_sp_values.
    destruct (fold_dadd (map (fun p => ([fst p], int_or_1 (snd p))) (items sp)) [])
      as (N & K & V); [constructor|]. repeat split; auto.
    + intro H. apply K in H as [[]|H]. apply items_keys in H as (x & -> & Hx & Hi).
      exists x. auto.
    + intros (x & -> & _ & Hx & Hi). apply K. right. apply items_keys. eauto.
    + intro x. destruct (element_letter x) eqn:Ex.
      * rewrite V. cbn [dval dget]. now rewrite items_sum.
      * apply dval_absent. rewrite K. intros [[]|H].
        apply items_keys in H as (y & Hy & Hy2 & _). congruence.
Qed.

(** ** Elements and sites of a list of formulas *)

Lemma sum_Z_app a b : sum_Z (a ++ b) = (sum_Z a + sum_Z b)%Z.
Proof. induction a as [|x a IH]; simpl; lia. Qed.

Lemma sum_key_app k a b : sum_key k (a ++ b) = (sum_key k a + sum_key k b)%Z.
Proof. unfold sum_key. now rewrite map_app, sum_Z_app. Qed.

Lemma sum_key_flat_map {A} k (g : A -> list (str * Z)) l :
  sum_key k (flat_map g l) = sum_Z (map (fun x => sum_key k (g x)) l).
Proof. induction l as [|x l IH]; simpl; auto. now rewrite sum_key_app, IH. Qed.

Lemma sum_key_dict k (d : dict Z) : NoDup (keys d) -> sum_key k d = dval d k.
Proof.
  induction d as [|[k' v] d IH]; intro N; auto. inversion N as [|? ? Hn N' E]; subst.
  unfold sum_key in *. cbn [map fst snd sum_Z]. rewrite IH by auto.
  unfold dval at 2. cbn [dget]. destruct (str_eqb_spec k k') as [->|]; [|unfold dval; lia].
  rewrite dval_absent by auto. lia.
Qed.

Lemma fold_left_flat_map {A B C} (f : A -> B -> A) (g : C -> list B) l a :
  fold_left (fun a x => fold_left f (g x) a) l a = fold_left f (flat_map g l) a.
Proof.
  revert a; induction l as [|x l IH]; intro a; simpl; auto. now rewrite IH, fold_left_app.
Qed.

Lemma dval_map_scale z (d : dict Z) k :
  dval (map (fun kn => (fst kn, (z * snd kn)%Z)) d) k = (z * dval d k)%Z.
Proof.
  unfold dval. induction d as [|[k' v] d IH]; cbn [map dget fst snd]; [lia|].
  destruct (str_eqb k k'); auto.
Qed.

Lemma formula_elements_props f :
  NoDup (keys (formula_elements f)) /\
  (forall k, In k (keys (formula_elements f)) <-> exists x, k = [x] /\ species_mentions x (f_species f)) /\
  (forall x, dval (formula_elements f) [x] = (f_stoich f * atoms_in_species x (f_species f))%Z).
Proof.
  destruct (species_dict_props (f_species f)) as (N & K & V).
  assert (E : keys (formula_elements f) = keys (species_elements_dict (f_species f))).
  { unfold formula_elements, keys. rewrite map_map. reflexivity. }
  rewrite E. repeat split; auto; try apply K.
  intro x. rewrite <- V. apply dval_map_scale.
Qed.

Lemma elements_of_formulas_props fs :
  NoDup (keys (elements_of_formulas fs)) /\
  (forall k, In k (keys (elements_of_formulas fs)) <-> exists x, k = [x] /\ mentions_atom x fs) /\
  (forall x, dval (elements_of_formulas fs) [x] = total_atoms x fs).
Proof.
  unfold elements_of_formulas. rewrite fold_left_flat_map.
  destruct (fold_dadd (flat_map formula_elements fs) []) as (N & K & V); [constructor|].
  repeat split; auto.
  - intro H. apply K in H as [[]|H]. apply in_map_iff in H as (kn & <- & H).
    apply in_flat_map in H as (f & Hf & H).
    destruct (formula_elements_props f) as (_ & Kf & _).
    destruct (proj1 (Kf (fst kn))) as (x & Hx & Hm); [now apply in_map|].
    exists x. split; auto. exists f. auto.
  - intros (x & -> & f & Hf & Hm). apply K. right.
    destruct (formula_elements_props f) as (_ & Kf & _).
    assert (H : In [x] (keys (formula_elements f))) by (apply Kf; eauto).
    unfold keys in H. apply in_map_iff in H as (kn & E & H). rewrite <- E. apply in_map.
    apply in_flat_map. eauto.
  - intro x. rewrite V, sum_key_flat_map. cbn [dval dget]. unfold total_atoms.
    rewrite Z.add_0_l. f_equal. apply map_ext. intro f.
    destruct (formula_elements_props f) as (Nf & _ & Vf).
    rewrite sum_key_dict by auto. apply Vf.
Qed.

Lemma exclusive_site_spec s : exclusive_site s = false <-> surface_site s.
Proof.
  unfold exclusive_site, surface_site. rewrite str_mem_not_In. simpl. intuition congruence.
Qed.

Definition surface_formula (f : formula) : list (str * Z) :=
  if exclusive_site (f_site f) then [] else formula_sites f.

Lemma sites_of_formulas_eq fs : sites_of_formulas fs = fold_left dadd (flat_map surface_formula fs) [].
Proof.
  unfold sites_of_formulas. rewrite <- fold_left_flat_map.
  generalize (@nil (str * Z)). induction fs as [|f fs IH]; intro d; auto. cbn [fold_left].
  rewrite IH. f_equal. unfold formula_sites, surface_formula. cbn [fold_left fst].
  destruct (exclusive_site (f_site f)); reflexivity.
Qed.

Lemma sites_of_formulas_props fs :
  NoDup (keys (sites_of_formulas fs)) /\
  (forall k, In k (keys (sites_of_formulas fs)) <-> surface_site k /\ mentions_site k fs) /\
  (forall s, surface_site s -> dval (sites_of_formulas fs) s = total_sites s fs).
Proof.
  rewrite sites_of_formulas_eq.
  destruct (fold_dadd (flat_map surface_formula fs) []) as (N & K & V); [constructor|].
  split; [auto|]. split; [intro k; split|].
  - intro H. apply K in H as [[]|H]. apply in_map_iff in H as (kn & <- & H).
    apply in_flat_map in H as (f & Hf & H). unfold surface_formula in H.
    destruct (exclusive_site (f_site f)) eqn:E; [destruct H|].
    destruct H as [<-|[]]. split; [now apply exclusive_site_spec|exists f; auto].
  - intros [Hs (f & Hf & <-)]. apply K. right. apply in_map_iff.
    exists (f_site f, (f_nsite f * f_stoich f)%Z). split; auto.
    apply in_flat_map. exists f. split; auto. unfold surface_formula.
    apply exclusive_site_spec in Hs. rewrite Hs. now left.
  - intros s Hs. rewrite V, sum_key_flat_map. cbn [dval dget]. unfold total_sites.
    rewrite Z.add_0_l. f_equal. apply map_ext. intro f. unfold surface_formula.
    destruct (exclusive_site (f_site f)) eqn:E.
    + destruct (str_eqb_spec (f_site f) s) as [<-|]; auto.
      apply exclusive_site_spec in Hs. congruence.
    + unfold formula_sites, sum_key. cbn [map sum_Z fst snd].
      rewrite (str_eqb_sym s). destruct (str_eqb (f_site f) s); lia.
Qed.

(** ** Conservation *)

Definition same_totals (fs1 fs2 : list formula) : Prop := balanced fs1 fs2 /\ same_mentions fs1 fs2.

Lemma elements_eqb_iff fs1 fs2 :
  dict_eqb Z.eqb (elements_of_formulas fs1) (elements_of_formulas fs2) = true <->
  (forall x, total_atoms x fs1 = total_atoms x fs2) /\
  (forall x, mentions_atom x fs1 <-> mentions_atom x fs2).
Proof.
  destruct (elements_of_formulas_props fs1) as (N1 & K1 & V1).
  destruct (elements_of_formulas_props fs2) as (N2 & K2 & V2).
  rewrite dict_eqb_Z, dget_ext_iff by auto. split.
  - intros [HK HV]. split; intro x.
    + now rewrite <- V1, <- V2.
    + split; intro H.
      * assert (I : In [x] (keys (elements_of_formulas fs2))) by (apply HK, K1; eauto).
        apply K2 in I as (y & E & Hy). congruence.
      * assert (I : In [x] (keys (elements_of_formulas fs1))) by (apply HK, K2; eauto).
        apply K1 in I as (y & E & Hy). congruence.
  - intros [HV HM].
    assert (HK : forall k, In k (keys (elements_of_formulas fs1)) <->
                           In k (keys (elements_of_formulas fs2))).
    { intro k. rewrite K1, K2. split; intros (x & -> & H); exists x; split; auto; now apply HM. }
    split; auto. intro k.
    destruct (in_dec str_dec k (keys (elements_of_formulas fs1))) as [Hi|Hn].
    + apply K1 in Hi as (x & -> & _). now rewrite V1, V2.
    + rewrite (dval_absent _ _ Hn). rewrite dval_absent; auto. now rewrite <- HK.
Qed.

Lemma sites_eqb_iff fs1 fs2 :
  dict_eqb Z.eqb (sites_of_formulas fs1) (sites_of_formulas fs2) = true <->
  (forall s, surface_site s -> total_sites s fs1 = total_sites s fs2) /\
  (forall s, surface_site s -> (mentions_site s fs1 <-> mentions_site s fs2)).
Proof.
  destruct (sites_of_formulas_props fs1) as (N1 & K1 & V1).
  destruct (sites_of_formulas_props fs2) as (N2 & K2 & V2).
  rewrite dict_eqb_Z, dget_ext_iff by auto. split.
  - intros [HK HV]. split; intros s Hs.
    + now rewrite <- V1, <- V2.
    + specialize (HK s). rewrite K1, K2 in HK. tauto.
  - intros [HV HM].
    assert (HK : forall k, In k (keys (sites_of_formulas fs1)) <->
                           In k (keys (sites_of_formulas fs2))).
    { intro k. rewrite K1, K2. specialize (HM k). tauto. }
    split; auto. intro k.
    destruct (in_dec str_dec k (keys (sites_of_formulas fs1))) as [Hi|Hn].
    + apply K1 in Hi as [Hs _]. rewrite V1, V2 by auto; auto.
    + rewrite (dval_absent _ _ Hn). rewrite dval_absent; auto. now rewrite <- HK.
Qed.

Lemma state_conserve_parsed st1 st2 fs1 fs2 :
  state_formulas st1 = Ok fs1 -> state_formulas st2 = Ok fs2 ->
  (same_totals fs1 fs2 /\ state_conserve st1 st2 = Ok true) \/
  (~ same_totals fs1 fs2 /\ state_conserve st1 st2 = Err ValueError).
Proof.
  intros H1 H2. unfold state_conserve, state_elements, state_sites. rewrite H1, H2. cbn [bind].
  destruct (dict_eqb Z.eqb (elements_of_formulas fs1) (elements_of_formulas fs2)) eqn:E; cbn [negb].
  - destruct (dict_eqb Z.eqb (sites_of_formulas fs1) (sites_of_formulas fs2)) eqn:S; cbn [negb].
    + left. split; auto. apply elements_eqb_iff in E. apply sites_eqb_iff in S.
      unfold same_totals, balanced, same_mentions. tauto.
    + right. split; auto. intros [[B1 B2] [M1 M2]].
      assert (dict_eqb Z.eqb (sites_of_formulas fs1) (sites_of_formulas fs2) = true)
        by (apply sites_eqb_iff; auto). congruence.
  - right. split; auto. intros [[B1 B2] [M1 M2]].
    assert (dict_eqb Z.eqb (elements_of_formulas fs1) (elements_of_formulas fs2) = true)
      by (apply elements_eqb_iff; auto). congruence.
Qed.

Lemma state_formulas_error st e : state_formulas st = Err e -> e = ChemFormulaError.
Proof.
  unfold state_formulas. generalize (state_split st). intro l.
  induction l as [|x l IH]; cbn [mapM]; [discriminate|].
  destruct (parse_formula x) eqn:E; cbn [bind].
  - destruct (mapM parse_formula l); cbn [bind]; [discriminate|]. intro H. apply IH. congruence.
  - intro H. injection H as <-. now apply formula_error in E.
Qed.

Lemma state_conserve_cases st1 st2 :
  (exists fs1 fs2, state_formulas st1 = Ok fs1 /\ state_formulas st2 = Ok fs2 /\
     (same_totals fs1 fs2 /\ state_conserve st1 st2 = Ok true \/
      ~ same_totals fs1 fs2 /\ state_conserve st1 st2 = Err ValueError)) \/
  (((exists e, state_formulas st1 = Err e) \/ (exists e, state_formulas st2 = Err e)) /\
   state_conserve st1 st2 = Err ChemFormulaError).
Proof.
  destruct (state_formulas st1) as [fs1|e1] eqn:E1.
  - destruct (state_formulas st2) as [fs2|e2] eqn:E2.
    + left. exists fs1, fs2. repeat split; auto. now apply state_conserve_parsed.
    + right. split; eauto. unfold state_conserve, state_elements. rewrite E1, E2. cbn [bind].
      f_equal. now apply state_formulas_error in E2.
  - right. split; eauto. unfold state_conserve, state_elements. rewrite E1. cbn [bind].
    f_equal. now apply state_formulas_error in E1.
Qed.

Lemma same_totals_refl a : same_totals a a.
Proof. unfold same_totals, balanced, same_mentions. intuition. Qed.
Lemma same_totals_sym a b : same_totals a b -> same_totals b a.
Proof.
  unfold same_totals, balanced, same_mentions. intros [[A B] [C D]].
  repeat split; intros; try symmetry; auto; try apply C; try apply D; auto.
Qed.
Lemma same_totals_trans a b c : same_totals a b -> same_totals b c -> same_totals a c.
Proof.
  unfold same_totals, balanced, same_mentions. intros [[A B] [C D]] [[A' B'] [C' D']].
  split; split; intros.
  - now rewrite A.
  - now rewrite B, B'.
  - now rewrite C.
  - now rewrite D, D'.
Qed.

Definition all_equal_totals (fls : list (list formula)) : Prop :=
  forall a b, In a fls -> In b fls -> same_totals a b.

Lemma all_equal_totals_cons f fls :
  all_equal_totals (f :: fls) <-> (forall b, In b fls -> same_totals f b).
Proof.
  split.
  - intros H b Hb. apply H; simpl; auto.
  - intros H a b [<-|Ha] [<-|Hb]; auto using same_totals_refl, same_totals_sym.
    eapply same_totals_trans; [apply same_totals_sym, H|apply H]; auto.
Qed.

Lemma conserve_all_parsed st0 f0 sts fls :
  state_formulas st0 = Ok f0 -> mapM state_formulas sts = Ok fls ->
  (forall b, In b fls -> same_totals f0 b) /\ conserve_all st0 sts = Ok true \/
  ~ (forall b, In b fls -> same_totals f0 b) /\ conserve_all st0 sts = Err ValueError.
Proof.
  intro H0. revert fls; induction sts as [|st sts IH]; intros fls H; cbn [mapM] in H.
  - injection H as <-. left. split; auto. intros b [].
  - destruct (state_formulas st) as [f|] eqn:E; [|discriminate].
    destruct (mapM state_formulas sts) as [fs|] eqn:E2; [|discriminate].
    cbn [bind] in H. injection H as <-. cbn [conserve_all].
    destruct (state_conserve_parsed st0 st f0 f H0 E) as [[A ->]|[A ->]]; cbn [bind].
    + destruct (IH fs eq_refl) as [[B C]|[B C]].
      * left. split; auto. intros b [<-|Hb]; auto.
      * right. split; auto. intro D. apply B. intros b Hb. apply D. now right.
    + right. split; auto. intro D. apply A, D. now left.
Qed.

Lemma conserve_all_error st0 sts e :
  conserve_all st0 sts = Err e -> e = ValueError \/ e = ChemFormulaError.
Proof.
  induction sts as [|st sts IH]; cbn [conserve_all]; [discriminate|].
  destruct (state_conserve_cases st0 st) as [(a & b & _ & _ & [[_ H]|[_ H]])|[_ H]];
    rewrite H; cbn [bind]; auto; intro E; injection E as <-; auto.
Qed.

Lemma conserve_all_ok st0 sts b :
  conserve_all st0 sts = Ok b ->
  b = true /\ (sts = [] \/ exists f0 fls, state_formulas st0 = Ok f0 /\ mapM state_formulas sts = Ok fls).
Proof.
  induction sts as [|st sts IH]; cbn [conserve_all].
  - intro H. injection H as <-. auto.
  - destruct (state_conserve_cases st0 st) as [(f0 & f & H0 & Hf & [[_ H]|[_ H]])|[_ H]];
      rewrite H; cbn [bind]; try discriminate.
    intro E. apply IH in E as [-> [->|(f0' & fls & H0' & Hfls)]]; split; auto; right.
    + exists f0, [f]. cbn [mapM]. rewrite Hf. auto.
    + exists f0, (f :: fls). cbn [mapM]. rewrite Hf, Hfls. auto.
Qed.

Lemma check_parsed e fls :
  rxn_formula_list e = Ok fls -> fls <> [] ->
  all_equal_totals fls /\ rxn_check_conservation e = Ok true \/
  ~ all_equal_totals fls /\ rxn_check_conservation e = Err ValueError.
Proof.
  unfold rxn_formula_list, rxn_check_conservation.
  destruct (rxn_tolist e) as [sts|] eqn:E; cbn [bind]; [|discriminate].
  intros H Hn. destruct sts as [|st0 sts]; cbn [mapM] in H; [congruence|].
  destruct (state_formulas st0) as [f0|] eqn:E0; [|discriminate].
  destruct (mapM state_formulas sts) as [fs|] eqn:E1; [|discriminate].
  cbn [bind] in H. injection H as <-. cbn [lfirst bind tl].
  destruct (conserve_all_parsed st0 f0 sts fs E0 E1) as [[A B]|[A B]].
  - left. split; auto. now apply all_equal_totals_cons.
  - right. split; auto. intro C. apply A. now apply all_equal_totals_cons.
Qed.

Lemma check_ok e sts :
  rxn_tolist e = Ok sts -> 2 <= length sts ->
  (rxn_check_conservation e = Ok true <->
   exists fls, rxn_formula_list e = Ok fls /\ all_equal_totals fls).
Proof.
  intros E Hl. split.
  - intro H. pose proof H as H'. unfold rxn_check_conservation in H. rewrite E in H.
    destruct sts as [|st0 [|st1 sts]]; cbn in Hl; try lia. cbn [lfirst bind tl] in H.
    apply conserve_all_ok in H as [_ [H|(f0 & fls & H0 & Hf)]]; [discriminate|].
    assert (F : rxn_formula_list e = Ok (f0 :: fls)).
    { unfold rxn_formula_list. rewrite E. cbn [bind]. 
      change (mapM state_formulas (st0 :: st1 :: sts))
        with (do y <- state_formulas st0; do ys <- mapM state_formulas (st1 :: sts); Ok (y :: ys)).
      rewrite H0. cbn [bind]. rewrite Hf. reflexivity. }
    exists (f0 :: fls). split; auto.
    destruct (check_parsed e _ F) as [[A B]|[A B]]; [discriminate|auto|congruence].
  - intros (fls & F & A). destruct (check_parsed e fls F) as [[_ B]|[B _]]; auto.
    + intros ->. unfold rxn_formula_list in F. rewrite E in F. cbn [bind] in F.
      apply mapM_length in F. destruct sts; cbn in *; lia.
    + contradiction.
Qed.

Lemma check_error e er :
  rxn_check_conservation e = Err er ->
  er = ValueError \/ er = ChemFormulaError \/
  (er = AttributeError /\ rxn_tolist e = Err AttributeError) \/
  (er = IndexError /\ rxn_tolist e = Ok []).
Proof.
  unfold rxn_check_conservation. destruct (rxn_tolist e) as [sts|er'] eqn:E; cbn [bind].
  - destruct sts as [|st0 sts]; cbn [lfirst bind tl].
    + intro H. injection H as <-. auto.
    + intro H. apply conserve_all_error in H. tauto.
  - unfold rxn_tolist in E. destruct (search states_regex e); [discriminate|].
    injection E as <-. intro H. injection H as <-. auto.
Qed.

Lemma check_result e b : rxn_check_conservation e = Ok b -> b = true.
Proof.
  unfold rxn_check_conservation. destruct (rxn_tolist e) as [sts|]; cbn [bind]; [|discriminate].
  destruct sts as [|st0 sts]; cbn [lfirst bind tl]; [discriminate|].
  intro H. now apply conserve_all_ok in H.
Qed.

Lemma check_one_state e st : rxn_tolist e = Ok [st] -> rxn_check_conservation e = Ok true.
Proof. intro E. unfold rxn_check_conservation. rewrite E. reflexivity. Qed.

(** Single formulas. *)
Lemma formula_conserve_iff f1 f2 :
  formula_conserve f1 f2 = Ok true <->
  (forall x, total_atoms x [f1] = total_atoms x [f2]) /\
  (forall x, species_mentions x (f_species f1) <-> species_mentions x (f_species f2)) /\
  f_site f1 = f_site f2 /\ (f_nsite f1 * f_stoich f1 = f_nsite f2 * f_stoich f2)%Z.
Proof.
  destruct (formula_elements_props f1) as (N1 & K1 & V1).
  destruct (formula_elements_props f2) as (N2 & K2 & V2).
  assert (Els : dict_eqb Z.eqb (formula_elements f1) (formula_elements f2) = true <->
    (forall x, total_atoms x [f1] = total_atoms x [f2]) /\
    (forall x, species_mentions x (f_species f1) <-> species_mentions x (f_species f2))).
  { rewrite dict_eqb_Z, dget_ext_iff by auto. unfold total_atoms. cbn [map sum_Z]. split.
    - intros [HK HV]. split; intro x.
      + rewrite <- V1, <- V2, HV. reflexivity.
      + split; intro H.
        * assert (I : In [x] (keys (formula_elements f2))) by (apply HK, K1; eauto).
          apply K2 in I as (y & E & Hy). congruence.
        * assert (I : In [x] (keys (formula_elements f1))) by (apply HK, K2; eauto).
          apply K1 in I as (y & E & Hy). congruence.
    - intros [HV HM].
      assert (HK : forall k, In k (keys (formula_elements f1)) <-> In k (keys (formula_elements f2))).
      { intro k. rewrite K1, K2. split; intros (x & -> & H); exists x; split; auto; now apply HM. }
      split; auto. intro k.
      destruct (in_dec str_dec k (keys (formula_elements f1))) as [Hi|Hn].
      + apply K1 in Hi as (x & -> & _). specialize (HV x). rewrite V1, V2. lia.
      + rewrite (dval_absent _ _ Hn). rewrite dval_absent; auto. now rewrite <- HK. }
  assert (Sit : dict_eqb Z.eqb (formula_sites f1) (formula_sites f2) = true <->
     f_site f1 = f_site f2 /\ (f_nsite f1 * f_stoich f1 = f_nsite f2 * f_stoich f2)%Z).
  { unfold formula_sites, dict_eqb. cbn [length Nat.eqb forallb fst snd dget andb].
    destruct (str_eqb_spec (f_site f1) (f_site f2)) as [E|E].
    - rewrite andb_true_r, Z.eqb_eq. tauto.
    - cbn. split; [discriminate|tauto]. }
  unfold formula_conserve.
  destruct (dict_eqb Z.eqb (formula_elements f1) (formula_elements f2)); cbn [negb].
  - destruct (dict_eqb Z.eqb (formula_sites f1) (formula_sites f2)); cbn [negb].
    + split; auto. intros _. destruct Els as [A _], Sit as [B _].
      destruct (A eq_refl), (B eq_refl). tauto.
    + split; [discriminate|]. intros (_ & _ & H). apply Sit in H. discriminate.
  - split; [discriminate|]. intros (H1 & H2 & _).
    assert (false = true) by (apply Els; auto). discriminate.
Qed.

(** ** Reversal and permutation *)

Lemma mapM_rev {A B} (f : A -> res B) l ys : mapM f l = Ok ys -> mapM f (rev l) = Ok (rev ys).
Proof.
  intro H. apply mapM_ok_iff in H. apply mapM_ok_iff.
  induction H as [|x y l ys Hxy H IH]; cbn [rev]; [constructor|].
  apply Forall2_app; auto.
Qed.

Lemma revert_formula_list e e' fls :
  rxn_revert e = Ok e' -> rxn_formula_list e = Ok fls -> rxn_formula_list e' = Ok (rev fls).
Proof.
  intros Hr Hf. unfold rxn_formula_list in *.
  destruct (rxn_tolist e) as [sts|] eqn:E; cbn [bind] in Hf; [|discriminate].
  assert (Hl : length sts = 2 \/ length sts = 3).
  { unfold rxn_revert in Hr. rewrite E in Hr. cbn [bind] in Hr.
    rewrite <- (rev_length sts).
    destruct (rev sts) as [|? [|? [|? [|? ?]]]]; try discriminate; simpl; auto. }
  destruct (revert_states e sts E Hl) as (e2 & H2 & H3).
  assert (e2 = e') by congruence. subst e2. rewrite H3. cbn [bind]. now apply mapM_rev.
Qed.

Lemma revert_tolist e e' :
  rxn_revert e = Ok e' ->
  exists sts, rxn_tolist e = Ok sts /\ (length sts = 2 \/ length sts = 3) /\
              rxn_tolist e' = Ok (rev sts).
Proof.
  intro Hr. pose proof Hr as Hr'. unfold rxn_revert in Hr.
  destruct (rxn_tolist e) as [sts|] eqn:E; cbn [bind] in Hr; [|discriminate].
  assert (Hl : length sts = 2 \/ length sts = 3).
  { rewrite <- (rev_length sts).
    destruct (rev sts) as [|? [|? [|? [|? ?]]]]; try discriminate; simpl; auto. }
  destruct (revert_states e sts E Hl) as (e2 & H2 & H3).
  exists sts. repeat split; auto. congruence.
Qed.

Lemma all_equal_totals_ext l1 l2 :
  (forall a, In a l1 <-> In a l2) -> all_equal_totals l1 -> all_equal_totals l2.
Proof. intros H A a b Ha Hb. apply A; now apply H. Qed.

Lemma check_revert e e' :
  rxn_revert e = Ok e' -> (rxn_check_conservation e = Ok true <-> rxn_check_conservation e' = Ok true).
Proof.
  intro Hr. destruct (revert_tolist e e' Hr) as (sts & E & Hl & E').
  rewrite (check_ok e sts E) by lia.
  rewrite (check_ok e' (rev sts) E') by (rewrite rev_length; lia).
  split; intros (fls & F & A).
  - exists (rev fls). split; [now apply revert_formula_list with (e := e)|].
    eapply all_equal_totals_ext; [|exact A]. intro a. apply in_rev.
  - unfold rxn_formula_list in *. rewrite E. rewrite E' in F. cbn [bind] in *.
    apply mapM_rev in F. rewrite rev_involutive in F. exists (rev fls). split; auto.
    eapply all_equal_totals_ext; [|exact A]. intro a. apply in_rev.
Qed.

Lemma sum_Z_perm l1 l2 : Permutation l1 l2 -> sum_Z l1 = sum_Z l2.
Proof. induction 1; simpl; lia. Qed.

Lemma same_totals_perm fs1 fs2 : Permutation fs1 fs2 -> same_totals fs1 fs2.
Proof.
  intro P. unfold same_totals, balanced, same_mentions, total_atoms, total_sites.
  repeat split.
  - intro x. apply sum_Z_perm. now apply Permutation_map.
  - intros s _. apply sum_Z_perm. now apply Permutation_map.
  - intros (f & Hf & H). exists f. split; auto. now apply (Permutation_in f P).
  - intros (f & Hf & H). exists f. split; auto.
    now apply (Permutation_in f (Permutation_sym P)).
  - intros (f & Hf & E). exists f. split; auto. now apply (Permutation_in f P).
  - intros (f & Hf & E). exists f. split; auto.
    now apply (Permutation_in f (Permutation_sym P)).
Qed.

Lemma mapM_perm {A B} (f : A -> res B) l1 l2 ys1 :
  Permutation l1 l2 -> mapM f l1 = Ok ys1 ->
  exists ys2, mapM f l2 = Ok ys2 /\ Permutation ys1 ys2.
Proof.
  intro P. revert ys1. induction P as [|x l1 l2 P IH|x y l|l1 l2 l3 P1 IH1 P2 IH2]; intros ys1 H.
  - exists ys1. auto.
  - cbn [mapM] in *. destruct (f x); [|discriminate]. cbn [bind] in *.
    destruct (mapM f l1) as [ys|]; [|discriminate]. cbn [bind] in H. injection H as <-.
    destruct (IH ys eq_refl) as (ys2 & -> & P2). cbn [bind]. eauto.
  - cbn [mapM] in *. destruct (f x); [|destruct (f y); discriminate].
    destruct (f y); [|discriminate]. cbn [bind] in *.
    destruct (mapM f l) as [ys|]; [|discriminate]. cbn [bind] in *. injection H as <-.
    eexists. split; [reflexivity|]. constructor.
  - destruct (IH1 ys1 H) as (ys2 & H2 & Q1). destruct (IH2 ys2 H2) as (ys3 & H3 & Q2).
    exists ys3. split; auto. now transitivity ys2.
Qed.

Lemma check_perm_states e1 e2 sts1 sts2 :
  rxn_tolist e1 = Ok sts1 -> rxn_tolist e2 = Ok sts2 -> 2 <= length sts1 ->
  Forall2 (fun a b => Permutation (state_split a) (state_split b)) sts1 sts2 ->
  rxn_check_conservation e1 = Ok true -> rxn_check_conservation e2 = Ok true.
Proof.
  intros E1 E2 Hl P H. apply (check_ok e1 sts1) in H as (fls & F & A); auto.
  apply (check_ok e2 sts2); auto; [now rewrite <- (Forall2_length _ _ _ P)|].
  unfold rxn_formula_list in *. rewrite E1 in F. rewrite E2. cbn [bind] in *.
  clear E1 E2 Hl.
  assert (G : exists fls2, mapM state_formulas sts2 = Ok fls2 /\
              Forall2 (fun a b => same_totals a b) fls fls2).
  { clear A. revert fls F. induction P as [|a b l1 l2 Hab P IH]; intros fls F; cbn [mapM] in *.
    - injection F as <-. exists []. auto.
    - destruct (state_formulas a) as [fa|] eqn:Ea; [|discriminate]. cbn [bind] in F.
      destruct (mapM state_formulas l1) as [fl1|]; [|discriminate]. cbn [bind] in F.
      injection F as <-. destruct (IH fl1 eq_refl) as (fl2 & -> & Q).
      unfold state_formulas in Ea. destruct (mapM_perm _ _ _ _ Hab Ea) as (fb & Eb & Pb).
      exists (fb :: fl2). change (state_formulas b) with (mapM parse_formula (state_split b)).
      rewrite Eb. cbn [bind]. split; auto. constructor; auto. now apply same_totals_perm. }
  destruct G as (fls2 & F2 & Q). exists fls2. split; auto.
  assert (In2 : forall b, In b fls2 -> exists a, In a fls /\ same_totals a b).
  { intros b Hb. clear -Q Hb. induction Q as [|a c l1 l2 Hac Q IH]; [destruct Hb|].
    destruct Hb as [<-|Hb]; [exists a; simpl; auto|].
    destruct (IH Hb) as (a' & Ha & Hs). exists a'. simpl. auto. }
  intros b1 b2 H1 H2. destruct (In2 b1 H1) as (a1 & Ha1 & S1), (In2 b2 H2) as (a2 & Ha2 & S2).
  eapply same_totals_trans; [apply same_totals_sym; exact S1|].
  eapply same_totals_trans; [|exact S2]. now apply A.
Qed.
