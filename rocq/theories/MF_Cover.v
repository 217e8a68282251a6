(** Proofs about coverage tables and the coverage constraint (C25, C26). *)
From Coq Require Import String Ascii List ZArith NArith Bool Arith Reals Lia Lra.
Import ListNotations.
From Verif Require Import PyBase PyBaseFacts Rxn_Model Rxn_Spec Species_Model Species_Spec
  Species_Proofs Species_Matrix PyReal Energy_Proofs Thermo_Model MF_Model MF_Spec.
Open Scope list_scope.

(** ** Tables given by a function on keys *)
Definition tab {V} (g : str -> V) (ks : list str) : dict V := map (fun k => (k, g k)) ks.

Lemma keys_tab {V} (g : str -> V) ks : keys (tab g ks) = ks.
Proof. unfold keys, tab. rewrite map_map. cbn. apply map_id. Qed.

Lemma dget_tab {V} (g : str -> V) ks k : dget (tab g ks) k = if str_mem k ks then Some (g k) else None.
Proof.
  induction ks as [|x ks IH]; auto. cbn. destruct (str_eqb_spec k x) as [->|]; auto.
Qed.

Lemma dget_tab_In {V} (g : str -> V) ks k : In k ks -> dget (tab g ks) k = Some (g k).
Proof. intro H. rewrite dget_tab. apply str_mem_In in H. now rewrite H. Qed.

Lemma dindex_tab {V} (g : str -> V) ks k : In k ks -> dindex (tab g ks) k = Ok (g k).
Proof. intro H. unfold dindex. now rewrite dget_tab_In. Qed.

Definition upd {V} (g : str -> V) (k : str) (v : V) : str -> V := fun x => if str_eqb x k then v else g x.

Lemma tab_ext {V} (g h : str -> V) ks : (forall k, In k ks -> g k = h k) -> tab g ks = tab h ks.
Proof. intro H. unfold tab. apply map_ext_in. intros k Hk. now rewrite H. Qed.

Lemma dset_tab {V} (g : str -> V) ks k v : NoDup ks -> In k ks -> dset (tab g ks) k v = tab (upd g k v) ks.
Proof.
  induction ks as [|x ks IH]; intros N H; [destruct H|]. inversion N; subst. cbn [tab map dset].
  unfold upd at 1. rewrite (str_eqb_sym x k). destruct (str_eqb_spec k x) as [->|E].
  - f_equal. apply tab_ext. intros y Hy. unfold upd. destruct (str_eqb_spec y x); congruence.
  - f_equal. apply IH; auto. destruct H; congruence.
Qed.

Lemma dset_new {V} (d : dict V) k v : dget d k = None -> dset d k v = d ++ [(k, v)].
Proof.
  induction d as [|[k' v'] d IH]; cbn; auto. destruct (str_eqb_spec k k'); [discriminate|].
  intro H. now rewrite IH.
Qed.

Lemma dsetdefault_new {V} (d : dict V) k v : dget d k = None -> dsetdefault d k v = d ++ [(k, v)].
Proof. intro H. unfold dsetdefault. rewrite H. now apply dset_new. Qed.

Lemma tab_app {V} (g : str -> V) a b : tab g (a ++ b) = tab g a ++ tab g b.
Proof. apply map_app. Qed.

Lemma dget_tab_none {V} (g : str -> V) ks k : ~ In k ks -> dget (tab g ks) k = None.
Proof. intro H. rewrite dget_tab. apply str_mem_not_In in H. now rewrite H. Qed.

(** [fold] of [setdefault] over distinct new keys. *)
Lemma fold_setdefault {V} (v : V) ks : NoDup ks ->
  fold_left (fun d x => dsetdefault d x v) ks [] = tab (fun _ => v) ks.
Proof.
  intro N. assert (G : forall a b, NoDup (a ++ b) ->
    fold_left (fun d x => dsetdefault d x v) b (tab (fun _ => v) a) = tab (fun _ => v) (a ++ b)).
  { intros a b. revert a. induction b as [|x b IH]; intros a Nab; cbn [fold_left].
    - now rewrite app_nil_r.
    - rewrite dsetdefault_new.
      + change (tab (fun _ => v) a ++ [(x, v)]) with (tab (fun _ => v) a ++ tab (fun _ => v) [x]).
        rewrite <- tab_app. rewrite IH by now rewrite <- app_assoc. now rewrite <- app_assoc.
      + apply dget_tab_none. apply NoDup_remove_2 in Nab. intro I. apply Nab. apply in_or_app. auto. }
  apply (G [] ks N).
Qed.

Lemma map_fst_combine {A B} (l : list A) (c : list B) : length c = length l -> map fst (combine l c) = l.
Proof.
  revert c. induction l as [|a l IH]; intros [|x c] H; try discriminate; auto. cbn. f_equal. apply IH.
  now injection H.
Qed.

Lemma combine_snoc {A B} (pre : list A) (c : list B) n x : nth_error c (length pre) = Some x ->
  combine (pre ++ [n]) c = combine pre c ++ [(n, x)].
Proof.
  revert c. induction pre as [|y pre IH]; intros [|z c] H; try discriminate; cbn in *.
  - injection H as ->. now destruct c.
  - f_equal. now apply IH.
Qed.

(** ** The prepared setup *)
Section Prepared.
  Variable s : setup.
  Hypothesis P : prepared s.

  Let parsed : parse_rxns (s_exprs s) = Ok (s_lists s) := proj1 P.

  Lemma NoDup_app_parts {A} (a b : list A) : NoDup (a ++ b) ->
    NoDup a /\ NoDup b /\ forall x, In x a -> ~ In x b.
  Proof.
    induction a as [|x a IH]; cbn; intro N; [split; [constructor|]; split; auto|].
    inversion N as [|? ? H1 H2]; subst. destruct (IH H2) as (Na & Nb & D). repeat split; auto.
    - constructor; auto. intro I. apply H1. apply in_or_app. auto.
    - intros y [<-|I] J; [apply H1; apply in_or_app; auto|]. now apply (D y).
  Qed.

  Lemma NoDup_ads : NoDup (ads s).
  Proof. destruct (NoDup_app_parts _ _ (site_columns_NoDup _ _ parsed)) as (_ & H & _). exact H. Qed.
  Lemma NoDup_sites : NoDup (sites s).
  Proof. destruct (NoDup_app_parts _ _ (site_columns_NoDup _ _ parsed)) as (H & _ & _). exact H. Qed.
  Lemma ads_not_site n : In n (ads s) -> ~ In n (sites s).
  Proof.
    destruct (NoDup_app_parts _ _ (site_columns_NoDup _ _ parsed)) as (_ & _ & D). intros I J.
    now apply (D n).
  Qed.

  Lemma ads_known n : In n (ads s) -> exists f, readable f /\ ads_formula f /\ n = f_species_site f /\
     occurs f (l_rxns (s_lists s)).
  Proof.
    intro H. destruct (parse_rxns_facts _ _ parsed) as (M & _ & _ & _ & _ & _ & _ & _ & _ & A & _).
    apply A in H as (f & O & R & E). exists f. split; [now apply (occurs_readable _ _ f M)|]. auto.
  Qed.

  Lemma site_of_known f : readable f -> site_of_name (f_species_site f) = Ok (L "*_" ++ f_site f) /\
     site_tag (f_species_site f) = L "*_" ++ f_site f.
  Proof.
    intro R. split.
    - unfold site_of_name. destruct (parse_coeff_name 1 (f_species_site f)) as (g & E & _ & En & _).
      + exists f. auto.
      + lia.
      + unfold coeff_text in E. cbn [Z.eqb Pos.eqb app] in E. rewrite E. cbn [bind].
        destruct (same_name_parts g f) as [_ <-]; auto. eexists. eauto.
    - unfold site_tag. now destruct (readable_name_parts f R) as (_ & -> & _).
  Qed.

  Lemma ads_site n : In n (ads s) -> site_of_name n = Ok (site_tag n) /\ In (site_tag n) (sites s).
  Proof.
    intro H. destruct (ads_known n H) as (f & R & A & -> & O).
    destruct (site_of_known f R) as [E1 E2]. rewrite E2. split; auto.
    destruct (parse_rxns_facts _ _ parsed) as (_ & _ & _ & _ & _ & _ & _ & _ & _ & _ & S).
    apply S. exists f. split; auto. split; auto. now destruct A.
  Qed.

  Definition on (site : str) (ns : list str) : list str := filter (fun n => str_eqb (site_tag n) site) ns.

  Lemma on_In site ns n : In n (on site ns) <-> In n ns /\ site_tag n = site.
  Proof. unfold on. rewrite filter_In, str_eqb_eq. tauto. Qed.

  Lemma classify_loop_ok ns done : (forall n, In n ns -> In n (ads s)) ->
    classify_loop (tab (fun x => on x done) (sites s)) ns
    = Ok (tab (fun x => on x (done ++ ns)) (sites s)).
  Proof.
    revert done; induction ns as [|n ns IH]; intros done H; cbn [classify_loop].
    - now rewrite app_nil_r.
    - destruct (ads_site n) as [E I]; [apply H; now left|]. rewrite E. cbn [bind].
      unfold dappend. rewrite dindex_tab by auto. cbn [bind].
      rewrite dset_tab by (auto using NoDup_sites).
      replace (tab (upd (fun x => on x done) (site_tag n) (on (site_tag n) done ++ [n])) (sites s))
        with (tab (fun x => on x (done ++ [n])) (sites s)).
      + rewrite IH by (intros; apply H; now right). now rewrite <- app_assoc.
      + apply tab_ext. intros x _. unfold upd, on. rewrite filter_app. cbn [filter].
        rewrite (str_eqb_sym x). destruct (str_eqb_spec (site_tag n) x) as [->|]; auto. now rewrite app_nil_r.
  Qed.

  Lemma classify_ok : classify s = Ok (tab (fun x => on x (ads s)) (sites s)).
  Proof.
    unfold classify. rewrite fold_setdefault by apply NoDup_sites.
    change (l_site (s_lists s)) with (sites s). change (l_ads (s_lists s)) with (ads s).
    apply (classify_loop_ok (ads s) []). auto.
  Qed.

  Lemma total_ok n : In n (sites s) -> exists t, dindex (s_total s) n = Ok t /\ n_val t = total s n.
  Proof.
    intro H. destruct (proj2 P) as (T & _). destruct (T n H) as [t E]. exists t. unfold dindex, total. now rewrite E.
  Qed.

  (** Coverage vectors. *)
  Variable cvgs : list R.
  Hypothesis Len : length cvgs = length (ads s).

  Lemma ads_loop_ok pre ns : ads s = pre ++ ns ->
    ads_loop ns (ads s) cvgs (combine pre cvgs) = Ok (combine (ads s) cvgs).
  Proof.
    revert pre; induction ns as [|n ns IH]; intros pre E; cbn [ads_loop].
    - rewrite app_nil_r in E. now rewrite E.
    - assert (Hn : nth_error (ads s) (length pre) = Some n).
      { rewrite E, nth_error_app2 by lia. now rewrite Nat.sub_diag. }
      rewrite (index_of_nth _ _ _ NoDup_ads Hn).
      assert (Hl : length pre < length cvgs).
      { rewrite Len. apply nth_error_Some. congruence. }
      unfold lindex. destruct (nth_error cvgs (length pre)) as [x|] eqn:Ex;
        [|apply nth_error_None in Ex; lia].
      cbn [bind].
      assert (Nn : ~ In n pre).
      { pose proof NoDup_ads as N. rewrite E in N. apply NoDup_remove_2 in N. intro I. apply N.
        apply in_or_app. auto. }
      rewrite dsetdefault_new.
      + replace (combine pre cvgs ++ [(n, x)]) with (combine (pre ++ [n]) cvgs).
        * apply IH. now rewrite <- app_assoc.
        * now apply combine_snoc.
      + apply dget_None. intro I. apply Nn. unfold keys in I. apply in_map_iff in I as ([k v] & <- & I).
        now apply in_combine_l in I.
  Qed.

  Lemma dget_combine_some n : In n (ads s) -> exists x, dget (combine (ads s) cvgs) n = Some x.
  Proof.
    intro H. destruct (In_nth_error _ _ H) as [i Hi].
    assert (Hl : i < length cvgs) by (rewrite Len; apply nth_error_Some; congruence).
    destruct (nth_error cvgs i) as [x|] eqn:Ex; [|apply nth_error_None in Ex; lia].
    exists x. apply In_dget.
    - unfold keys. replace (map fst (combine (ads s) cvgs)) with (ads s); [apply NoDup_ads|].
      symmetry. now apply map_fst_combine.
    - apply (nth_error_In _ i). now apply combine_nth_error.
  Qed.

  Lemma coverage_combine n x : dget (combine (ads s) cvgs) n = Some x -> coverage s cvgs n = x.
  Proof. unfold coverage. now intros ->. Qed.

  Lemma combine_tab : combine (ads s) cvgs = tab (coverage s cvgs) (ads s).
  Proof.
    assert (G : forall l c, length c = length l -> NoDup l -> (forall n, In n l -> In n (ads s)) ->
      (forall n x, In (n, x) (combine l c) -> dget (combine (ads s) cvgs) n = Some x) ->
      combine l c = tab (coverage s cvgs) l).
    { induction l as [|n l IH]; intros [|x c] H N I D; try discriminate; auto. cbn.
      inversion N; subst. f_equal.
      - f_equal. symmetry. apply coverage_combine. apply D. now left.
      - apply IH; auto; [intros; apply I; now right|]. intros m y J. apply D. now right. }
    apply G; auto using NoDup_ads.
    intros n x I. apply In_dget; auto.
    unfold keys. replace (map fst (combine (ads s) cvgs)) with (ads s); [apply NoDup_ads|].
    symmetry. now apply map_fst_combine.
  Qed.

  Lemma nth_coverage i n x : nth_error (ads s) i = Some n -> nth_error cvgs i = Some x -> coverage s cvgs n = x.
  Proof.
    intros H1 H2. pose proof (combine_nth_error (ads s) cvgs i n x H1 H2) as H.
    rewrite combine_tab in H. unfold tab in H. rewrite nth_error_map, H1 in H. cbn in H. congruence.
  Qed.

  Lemma coverages_list : map (coverage s cvgs) (ads s) = cvgs.
  Proof.
    pose proof combine_tab as E. apply (f_equal (map snd)) in E.
    rewrite map_snd_combine in E by auto. symmetry. etransitivity; [exact E|].
    unfold tab. now rewrite map_map.
  Qed.

  Lemma covered_sum site : covered site (ads s) cvgs = Rsum (map (coverage s cvgs) (on site (ads s))).
  Proof.
    assert (G : forall l c, combine l c = tab (coverage s cvgs) l -> length c = length l ->
       covered site l c = Rsum (map (coverage s cvgs) (on site l))).
    { induction l as [|n l IH]; intros [|x c] E H; try discriminate; auto.
      cbn in E. injection E as E1 E2. cbn [covered on filter].
      rewrite (IH c) by auto. destruct (str_eqb (site_tag n) site); cbn [map Rsum].
      - now rewrite E1.
      - apply Rplus_0_l. }
    apply G; auto. apply combine_tab.
  Qed.

  Lemma sum_of_tab g ks names acc : (forall n, In n names -> In n ks) ->
    sum_of (tab g ks) acc names = Ok (acc + Rsum (map g names))%R.
  Proof.
    revert acc; induction names as [|n ns IH]; intros acc H; cbn [sum_of map Rsum].
    - now rewrite Rplus_0_r.
    - rewrite dindex_tab by (apply H; now left). cbn [bind].
      rewrite IH by (intros; apply H; now right). f_equal. ring.
  Qed.

  Lemma site_coverage site : In site (sites s) ->
    coverage s cvgs site = (total s site - covered site (ads s) cvgs)%R.
  Proof.
    intro H. unfold coverage. rewrite combine_tab, dget_tab_none; auto. intro I. now apply (ads_not_site site).
  Qed.

  Lemma free_loop_ok pre ss : sites s = pre ++ ss ->
    free_loop s (tab (fun x => on x (ads s)) (sites s)) ss (tab (coverage s cvgs) (ads s ++ pre))
    = Ok (tab (coverage s cvgs) (ads s ++ sites s)).
  Proof.
    revert pre; induction ss as [|n ss IH]; intros pre E; cbn [free_loop].
    - rewrite app_nil_r in E. now rewrite E.
    - assert (In n (sites s)) as Hn by (rewrite E; apply in_or_app; right; now left).
      destruct (total_ok n Hn) as (t & -> & Et). cbn [bind]. rewrite dindex_tab by auto. cbn [bind].
      rewrite sum_of_tab by (intros m Hm; apply on_In in Hm as [Hm _]; apply in_or_app; auto).
      cbn [bind]. rewrite Rplus_0_l, Et, <- covered_sum, <- site_coverage by auto.
      rewrite dsetdefault_new.
      + change (tab (coverage s cvgs) (ads s ++ pre) ++ [(n, coverage s cvgs n)])
          with (tab (coverage s cvgs) (ads s ++ pre) ++ tab (coverage s cvgs) [n]).
        rewrite <- tab_app, <- app_assoc. apply IH. now rewrite <- app_assoc.
      + apply dget_tab_none. intro I. apply in_app_or in I as [I|I].
        * now apply (ads_not_site n).
        * pose proof NoDup_sites as N. rewrite E in N. apply NoDup_remove_2 in N. apply N. apply in_or_app. auto.
  Qed.

  Lemma tuple2dict_ok : tuple2dict s (tab (fun x => on x (ads s)) (sites s)) cvgs
    = Ok (tab (coverage s cvgs) (ads s ++ sites s)).
  Proof.
    unfold tuple2dict. change (l_ads (s_lists s)) with (ads s). change (l_site (s_lists s)) with (sites s).
    pose proof (ads_loop_ok [] (ads s) eq_refl) as E. cbn [combine] in E. rewrite E. cbn [bind].
    rewrite combine_tab. pose proof (free_loop_ok [] (sites s) eq_refl) as F. rewrite app_nil_r in F. exact F.
  Qed.

  Lemma dict2tuple_tab g ks : (forall n, In n (ads s) -> In n ks) ->
    dict2tuple s (tab g ks) = Ok (map g (ads s)).
  Proof.
    unfold dict2tuple. change (l_ads (s_lists s)) with (ads s). clear. induction (ads s) as [|n ns IH]; intro H; auto.
    cbn [mapM map]. rewrite dindex_tab by (apply H; now left). cbn [bind].
    rewrite IH by (intros; apply H; now right). reflexivity.
  Qed.

  (** ** C25 *)
  Lemma views_agree : exists cl d, classify s = Ok cl /\ tuple2dict s cl cvgs = Ok d /\
     dict2tuple s d = Ok cvgs /\ map fst d = ads s ++ sites s /\
     (forall i n x, nth_error (ads s) i = Some n -> nth_error cvgs i = Some x -> dget d n = Some x) /\
     (forall site, In site (sites s) -> exists free, dget d site = Some free /\
        (covered site (ads s) cvgs + free = total s site)%R).
  Proof.
    exists (tab (fun x => on x (ads s)) (sites s)), (tab (coverage s cvgs) (ads s ++ sites s)).
    split; [apply classify_ok|]. split; [apply tuple2dict_ok|].
    split; [rewrite dict2tuple_tab by (intros; apply in_or_app; auto); now rewrite coverages_list|].
    split; [apply keys_tab|]. split.
    - intros i n x H1 H2. rewrite dget_tab_In by (apply in_or_app; left; eapply nth_error_In; eauto).
      f_equal. eapply nth_coverage; eauto.
    - intros site H. exists (coverage s cvgs site). rewrite dget_tab_In by (apply in_or_app; auto).
      split; auto. rewrite site_coverage by auto. ring.
  Qed.
End Prepared.

Lemma classify_exact s : prepared s ->
  exists cl, classify s = Ok cl /\ map fst cl = sites s /\
    (forall site names, dget cl site = Some names ->
       forall n, In n names <-> In n (ads s) /\ site_tag n = site) /\
    (forall site names, dget cl site = Some names -> NoDup names) /\
    (forall n, In n (ads s) -> exists names, dget cl (site_tag n) = Some names /\ In n names).
Proof.
  intro P. exists (tab (fun x => on x (ads s)) (sites s)). split; [now apply classify_ok|].
  split; [apply keys_tab|].
  assert (D : forall site names, dget (tab (fun x => on x (ads s)) (sites s)) site = Some names ->
     names = on site (ads s)).
  { intros site names E. rewrite dget_tab in E. destruct (str_mem site (sites s)); congruence. }
  split; [|split].
  - intros site names E n. apply D in E as ->. apply on_In.
  - intros site names E. apply D in E as ->. apply NoDup_filter. now apply NoDup_ads.
  - intros n H. destruct (ads_site s P n H) as [_ I]. exists (on (site_tag n) (ads s)).
    rewrite dget_tab_In by auto. split; auto. now apply on_In.
Qed.

Lemma ads_loop_short all cvgs : NoDup all -> length cvgs < length all ->
  ads_loop all all cvgs [] = Err IndexError.
Proof.
  intros N Hl. assert (G : forall ns pre d, all = pre ++ ns -> length pre <= length cvgs ->
    ads_loop ns all cvgs d = Err IndexError).
  { induction ns as [|n ns IH]; intros pre d E Hp; cbn [ads_loop].
    - rewrite app_nil_r in E. subst. lia.
    - assert (Hn : nth_error all (length pre) = Some n).
      { rewrite E, nth_error_app2 by lia. now rewrite Nat.sub_diag. }
      rewrite (index_of_nth _ _ _ N Hn). unfold lindex.
      destruct (nth_error cvgs (length pre)) as [x|] eqn:Ex; cbn [bind]; auto.
      apply (IH (pre ++ [n])); [now rewrite <- app_assoc|].
      rewrite app_length. cbn. assert (length pre < length cvgs) by (apply nth_error_Some; congruence). lia. }
  apply (G all [] []); auto. cbn. lia.
Qed.

Lemma short_vector s cvgs : prepared s -> length cvgs < length (ads s) ->
  exists cl, classify s = Ok cl /\ tuple2dict s cl cvgs = Err IndexError.
Proof.
  intros P H. exists (tab (fun x => on x (ads s)) (sites s)). split; [now apply classify_ok|].
  unfold tuple2dict. change (l_ads (s_lists s)) with (ads s).
  rewrite ads_loop_short; auto. now apply NoDup_ads.
Qed.

(** A table with the right keys and totals is rebuilt from its vector. *)
Lemma dict_rebuilt s d cvgs : prepared s ->
  dict2tuple s d = Ok cvgs ->
  (forall site, In site (sites s) -> exists free, dget d site = Some free /\
        (covered site (ads s) cvgs + free = total s site)%R) ->
  exists cl d', classify s = Ok cl /\ tuple2dict s cl cvgs = Ok d' /\
    forall n, In n (ads s ++ sites s) -> dget d' n = dget d n.
Proof.
  intros P E F.
  assert (Len : length cvgs = length (ads s)) by (now apply mapM_length in E).
  exists (tab (fun x => on x (ads s)) (sites s)), (tab (coverage s cvgs) (ads s ++ sites s)).
  split; [now apply classify_ok|]. split; [now apply tuple2dict_ok|].
  intros n H. rewrite dget_tab_In by auto. apply in_app_or in H as [H|H].
  - unfold dict2tuple in E. change (l_ads (s_lists s)) with (ads s) in E. apply mapM_ok_iff in E.
    destruct (In_nth_error _ _ H) as [i Hi].
    assert (Hl : i < length cvgs) by (rewrite Len; apply nth_error_Some; congruence).
    destruct (nth_error cvgs i) as [x|] eqn:Ex; [|apply nth_error_None in Ex; lia].
    rewrite (nth_coverage s P cvgs Len i n x Hi Ex).
    assert (G : dindex d n = Ok x).
    { clear -E Hi Ex. revert i Hi Ex. induction E as [|a b l l' H E IH]; intros [|i] H1 H2; try discriminate; cbn in *.
      - congruence.
      - eauto. }
    unfold dindex in G. destruct (dget d n); congruence.
  - destruct (F n H) as (free & -> & Hs). rewrite (site_coverage s P cvgs Len n H). f_equal. lra.
Qed.

(** ** C26 *)
Definition bounded (s : setup) (g : str -> R) : str -> R :=
  fun n => clip_total (total s (site_tag n)) (clip01 (g n)).
Definition site_load (s : setup) (g : str -> R) (site : str) : R := Rsum (map g (on site (ads s))).
Definition rescaled (s : setup) (g : str -> R) : str -> R :=
  fun n => let t := total s (site_tag n) in let l := site_load s g (site_tag n) in
           if Rltb t l then (g n / l * t)%R else g n.

Section Constrain.
  Variable s : setup.
  Hypothesis P : prepared s.
  Hypothesis Tot : forall site, In site (sites s) -> (0 <= total s site)%R.

  Let ks := ads s ++ sites s.
  Lemma ks_NoDup : NoDup ks.
  Proof.
    unfold ks. pose proof (NoDup_ads s P) as N1. pose proof (NoDup_sites s P) as N2.
    pose proof (ads_not_site s P) as D. revert N1 D. generalize (ads s). induction l as [|x l IH]; intros N1 D; auto.
    inversion N1; subst. cbn. constructor.
    - intro I. apply in_app_or in I as [I|I]; auto. apply (D x); auto. now left.
    - apply IH; auto. intros n I. apply D. now right.
  Qed.
  Lemma ads_ks n : In n (ads s) -> In n ks.
  Proof. intro. apply in_or_app. auto. Qed.

  Lemma clip_loop_ok g names h : NoDup names -> (forall n, In n names -> In n ks) ->
    clip_loop g names (tab h ks) = Ok (tab (fun n => if str_mem n names then g (h n) else h n) ks).
  Proof.
    revert h; induction names as [|n ns IH]; intros h N H; cbn [clip_loop].
    - f_equal.
    - rewrite dindex_tab by (apply H; now left). cbn [bind].
      rewrite dset_tab by (apply ks_NoDup || (apply H; now left)). inversion N; subst.
      rewrite IH by (auto; intros; apply H; now right). f_equal. apply tab_ext. intros k _.
      unfold upd, str_mem. cbn [existsb]. destruct (str_eqb_spec k n) as [->|]; cbn [orb].
      + assert (str_mem n ns = false) as E by now apply str_mem_not_In. unfold str_mem in E. now rewrite E.
      + reflexivity.
  Qed.

  Lemma tag_mem n site : str_mem n (on site (ads s)) = true <-> In n (ads s) /\ site_tag n = site.
  Proof. rewrite str_mem_In. apply on_In. Qed.

  Lemma on_NoDup site : NoDup (on site (ads s)).
  Proof. apply NoDup_filter. now apply NoDup_ads. Qed.

  Lemma clip_sites_ok ss h : NoDup ss -> (forall x, In x ss -> In x (sites s)) ->
    clip_sites s (tab (fun x => on x (ads s)) (sites s)) ss (tab h ks)
    = Ok (tab (fun n => if str_mem n (ads s) && str_mem (site_tag n) ss
                        then clip_total (total s (site_tag n)) (h n) else h n) ks).
  Proof.
    revert h; induction ss as [|x ss IH]; intros h N H; cbn [clip_sites].
    - f_equal. apply tab_ext. intros. now rewrite andb_false_r.
    - destruct (total_ok s P x) as (t & -> & Et); [apply H; now left|]. cbn [bind].
      rewrite dindex_tab by (apply H; now left). cbn [bind].
      rewrite clip_loop_ok by (try apply on_NoDup; intros n I; apply on_In in I as [I _]; now apply ads_ks).
      cbn [bind]. inversion N; subst. rewrite IH by (auto; intros; apply H; now right).
      f_equal. apply tab_ext. intros n _. rewrite Et.
      change (str_mem (site_tag n) (x :: ss)) with (str_eqb (site_tag n) x || str_mem (site_tag n) ss).
      destruct (str_mem n (ads s)) eqn:E1; cbn [andb].
      + destruct (str_eqb_spec (site_tag n) x) as [E2|E2]; cbn [orb].
        * assert (str_mem n (on x (ads s)) = true) as -> by (apply tag_mem; split; auto; now apply str_mem_In).
          rewrite <- E2 in *. assert (str_mem (site_tag n) ss = false) as -> by now apply str_mem_not_In.
          reflexivity.
        * assert (str_mem n (on x (ads s)) = false) as ->; auto.
          apply not_true_iff_false. intro T. apply tag_mem in T. tauto.
      + assert (str_mem n (on x (ads s)) = false) as ->; auto.
        apply not_true_iff_false. intro T. apply tag_mem in T as [T _]. apply str_mem_In in T. congruence.
  Qed.

  Lemma sub_dict_ok h names pre : NoDup (pre ++ names) -> (forall n, In n (pre ++ names) -> In n ks) ->
    sub_dict (tab h ks) names (tab h pre) = Ok (tab h (pre ++ names)).
  Proof.
    revert pre; induction names as [|n ns IH]; intros pre N H; cbn [sub_dict].
    - now rewrite app_nil_r.
    - rewrite dindex_tab by (apply H; apply in_or_app; right; now left). cbn [bind].
      rewrite dsetdefault_new.
      + change (tab h pre ++ [(n, h n)]) with (tab h pre ++ tab h [n]). rewrite <- tab_app.
        rewrite IH; rewrite <- app_assoc; auto.
      + apply dget_tab_none. apply NoDup_remove_2 in N. intro I. apply N. apply in_or_app. auto.
  Qed.

  Lemma scale_ok h names tot mx : tot <> 0%R ->
    scale (tab h names) tot mx = Ok (tab (fun n => (h n / tot * mx)%R) names).
  Proof.
    intro H. induction names as [|n ns IH]; auto. cbn [tab map scale].
    unfold pydiv. destruct (Reqb tot 0) eqn:E; [apply Reqb_true in E; contradiction|]. cbn [bind].
    unfold tab in IH. rewrite IH. reflexivity.
  Qed.

  Lemma dupdate_ok (h g : str -> R) names : NoDup names -> (forall n, In n names -> In n ks) ->
    dupdate (tab h ks) (tab g names) = tab (fun n => if str_mem n names then g n else h n) ks.
  Proof.
    unfold dupdate. revert h; induction names as [|n ns IH]; intros h N H; cbn [tab map fold_left fst snd]; auto.
    rewrite dset_tab by (apply ks_NoDup || (apply H; now left)). inversion N; subst.
    fold (tab g ns). rewrite IH by (auto; intros; apply H; now right). apply tab_ext. intros k _.
    unfold upd. change (str_mem k (n :: ns)) with (str_eqb k n || str_mem k ns).
    destruct (str_eqb_spec k n) as [->|]; cbn [orb]; auto.
    assert (str_mem n ns = false) as -> by now apply str_mem_not_In. reflexivity.
  Qed.

  Lemma total_sites_ok ss h : NoDup ss -> (forall x, In x ss -> In x (sites s)) ->
    total_sites_loop s (tab (fun x => on x (ads s)) (sites s)) ss (tab h ks)
    = Ok (tab (fun n => if str_mem n (ads s) && str_mem (site_tag n) ss then rescaled s h n else h n) ks).
  Proof.
    revert h; induction ss as [|x ss IH]; intros h N H; cbn [total_sites_loop].
    - f_equal. apply tab_ext. intros. now rewrite andb_false_r.
    - assert (Hx : In x (sites s)) by (apply H; now left).
      destruct (total_ok s P x Hx) as (t & -> & Et). cbn [bind].
      rewrite dindex_tab by auto. cbn [bind].
      assert (Hin : forall n, In n (on x (ads s)) -> In n ks)
        by (intros n I; apply on_In in I as [I _]; now apply ads_ks).
      change (@nil (str * R)) with (tab h []).
      rewrite (sub_dict_ok h (on x (ads s)) []) by (cbn; auto using on_NoDup). cbn [app bind].
      set (h' := fun n => if str_mem n (ads s) && str_eqb (site_tag n) x then rescaled s h n else h n).
      assert (E : exists sub, constrain_in_total (tab h (on x (ads s))) (n_val t) = Ok sub /\
                  dupdate (tab h ks) sub = tab h' ks).
      { unfold constrain_in_total. rewrite Et.
        replace (Rsum (map snd (tab h (on x (ads s))))) with (site_load s h x)
          by (unfold site_load, tab; now rewrite map_map).
        assert (M : forall n, str_mem n (ads s) && str_eqb (site_tag n) x = str_mem n (on x (ads s))).
        { intro n. apply eq_true_iff_eq. rewrite andb_true_iff, tag_mem, str_mem_In, str_eqb_eq. tauto. }
        destruct (Rltb (total s x) (site_load s h x)) eqn:E.
        - eexists. split.
          + apply scale_ok. apply Rltb_true in E. specialize (Tot x Hx). lra.
          + rewrite dupdate_ok by (auto using on_NoDup). apply tab_ext. intros n _. unfold h'. rewrite M.
            destruct (str_mem n (on x (ads s))) eqn:T; auto. apply tag_mem in T as [_ <-].
            unfold rescaled. now rewrite E.
        - eexists. split; [reflexivity|]. rewrite dupdate_ok by (auto using on_NoDup).
          apply tab_ext. intros n _. unfold h'. rewrite M.
          destruct (str_mem n (on x (ads s))) eqn:T; auto. apply tag_mem in T as [_ <-].
          unfold rescaled. now rewrite E. }
      destruct E as (sub & -> & E). cbn [bind]. rewrite E. inversion N; subst.
      rewrite IH by (auto; intros; apply H; now right). f_equal. apply tab_ext. intros n _.
      change (str_mem (site_tag n) (x :: ss)) with (str_eqb (site_tag n) x || str_mem (site_tag n) ss).
      destruct (str_mem n (ads s)) eqn:E1; cbn [andb].
      + destruct (str_eqb_spec (site_tag n) x) as [E2|E2]; cbn [orb].
        * rewrite E2. assert (str_mem x ss = false) as -> by now apply str_mem_not_In.
          unfold h'. rewrite E1, E2, str_eqb_refl. reflexivity.
        * assert (Eh : h' n = h n).
          { unfold h'. rewrite E1. cbn [andb]. apply str_eqb_neq in E2. now rewrite E2. }
          destruct (str_mem (site_tag n) ss) eqn:E3; auto.
          unfold rescaled. rewrite Eh.
          replace (site_load s h' (site_tag n)) with (site_load s h (site_tag n)); auto.
          unfold site_load. f_equal. apply map_ext_in. intros m Hm. apply on_In in Hm as [_ Hm].
          unfold h'. rewrite Hm. apply str_eqb_neq in E2. rewrite E2. now rewrite andb_false_r.
      + unfold h'. now rewrite E1.
  Qed.

  Lemma constrain_ok cvgs : length cvgs = length (ads s) ->
    constrain_coverages s cvgs = Ok (map (rescaled s (bounded s (coverage s cvgs))) (ads s)).
  Proof.
    intro Len. unfold constrain_coverages. rewrite (classify_ok s P). cbn [bind].
    rewrite (tuple2dict_ok s P cvgs Len). cbn [bind]. fold ks.
    change (l_ads (s_lists s)) with (ads s). change (l_site (s_lists s)) with (sites s).
    rewrite clip_loop_ok by (auto using NoDup_ads, ads_ks). cbn [bind].
    rewrite clip_sites_ok by (auto using NoDup_sites). cbn [bind].
    rewrite total_sites_ok by (auto using NoDup_sites). cbn [bind].
    rewrite dict2tuple_tab by apply ads_ks. f_equal. apply map_ext_in. intros n Hn.
    assert (str_mem n (ads s) = true) as E by now apply str_mem_In. rewrite E.
    destruct (ads_site s P n Hn) as [_ Hs]. assert (str_mem (site_tag n) (sites s) = true) as E2 by now apply str_mem_In.
    rewrite E2. cbn [andb].
    assert (B : forall m, In m (ads s) ->
       (if str_mem m (ads s) && str_mem (site_tag m) (sites s)
        then clip_total (total s (site_tag m)) (if str_mem m (ads s) then clip01 (coverage s cvgs m) else coverage s cvgs m)
        else if str_mem m (ads s) then clip01 (coverage s cvgs m) else coverage s cvgs m)
       = bounded s (coverage s cvgs) m).
    { intros m Hm. assert (str_mem m (ads s) = true) as -> by now apply str_mem_In.
      destruct (ads_site s P m Hm) as [_ Hms]. assert (str_mem (site_tag m) (sites s) = true) as -> by now apply str_mem_In.
      reflexivity. }
    unfold rescaled. rewrite (B n Hn).
    match goal with |- context [site_load s ?g (site_tag n)] =>
      replace (site_load s g (site_tag n)) with (site_load s (bounded s (coverage s cvgs)) (site_tag n)) end; auto.
    unfold site_load. f_equal. apply map_ext_in. intros m Hm. apply on_In in Hm as [Hm _]. symmetry. now apply B.
  Qed.

  Lemma clip01_bounds x : (0 <= clip01 x <= 1)%R.
  Proof.
    unfold clip01. destruct (Rltb 1 x) eqn:E1.
    - destruct (Rltb 1 0) eqn:E2; [apply Rltb_true in E2|]; lra.
    - apply Rltb_false in E1. destruct (Rltb x 0) eqn:E2; [lra|]. apply Rltb_false in E2. lra.
  Qed.

  Lemma bounded_bounds g n : In n (ads s) ->
    (0 <= bounded s g n <= 1 /\ bounded s g n <= total s (site_tag n))%R.
  Proof.
    intro Hn. destruct (ads_site s P n Hn) as [_ Hs]. specialize (Tot _ Hs).
    unfold bounded, clip_total. pose proof (clip01_bounds (g n)).
    destruct (Rltb (total s (site_tag n)) (clip01 (g n))) eqn:E;
      [apply Rltb_true in E|apply Rltb_false in E]; lra.
  Qed.

  Lemma Rsum_scale (g : str -> R) a b l : Rsum (map (fun n => g n / a * b)%R l) = (Rsum (map g l) / a * b)%R.
  Proof. induction l as [|n l IH]; cbn [map Rsum]; [unfold Rdiv; ring|]. rewrite IH. unfold Rdiv. ring. Qed.

  Lemma Rsum_nonneg l : (forall x, In x l -> 0 <= x)%R -> (0 <= Rsum l)%R.
  Proof.
    induction l as [|x l IH]; intro H; cbn; [lra|]. pose proof (H x (or_introl eq_refl)).
    assert (0 <= Rsum l)%R by (apply IH; intros; apply H; now right). lra.
  Qed.

  Lemma rescaled_bounds g n : (forall m, In m (ads s) -> 0 <= g m)%R -> In n (ads s) ->
    (0 <= rescaled s g n <= g n)%R.
  Proof.
    intros Hg Hn. destruct (ads_site s P n Hn) as [_ Hs]. pose proof (Tot _ Hs) as HT. pose proof (Hg n Hn).
    unfold rescaled. destruct (Rltb (total s (site_tag n)) (site_load s g (site_tag n))) eqn:E; [|lra].
    apply Rltb_true in E. assert (HL : (0 < site_load s g (site_tag n))%R) by lra.
    set (l := site_load s g (site_tag n)) in *. set (t := total s (site_tag n)) in *.
    replace (g n / l * t)%R with (g n * (t / l))%R by (unfold Rdiv; ring).
    assert (0 <= t / l <= 1)%R.
    { split; [apply Rmult_le_pos; [lra|left; now apply Rinv_0_lt_compat]|].
      apply (Rmult_le_reg_r l); auto. unfold Rdiv. rewrite Rmult_assoc, Rinv_l by lra. lra. }
    split; [apply Rmult_le_pos; lra|]. rewrite <- (Rmult_1_r (g n)) at 2. apply Rmult_le_compat_l; lra.
  Qed.

  Lemma rescaled_load g site : (forall m, In m (ads s) -> 0 <= g m)%R -> In site (sites s) ->
    (site_load s (rescaled s g) site <= total s site)%R.
  Proof.
    intros Hg Hs. pose proof (Tot _ Hs) as HT.
    unfold site_load at 1. destruct (Rltb (total s site) (site_load s g site)) eqn:E.
    - replace (map (rescaled s g) (on site (ads s)))
        with (map (fun n => g n / site_load s g site * total s site)%R (on site (ads s))).
      + rewrite Rsum_scale. fold (site_load s g site). apply Rltb_true in E.
        replace (site_load s g site / site_load s g site)%R with 1%R by (field; lra). lra.
      + apply map_ext_in. intros n Hn. apply on_In in Hn as [_ <-]. unfold rescaled. now rewrite E.
    - replace (map (rescaled s g) (on site (ads s))) with (map g (on site (ads s))).
      + apply Rltb_false in E. exact E.
      + apply map_ext_in. intros n Hn. apply on_In in Hn as [_ <-]. unfold rescaled. now rewrite E.
  Qed.

  Lemma map_coverage g n : In n (ads s) -> coverage s (map g (ads s)) n = g n.
  Proof.
    intro H. destruct (In_nth_error _ _ H) as [i Hi].
    apply (nth_coverage s P (map g (ads s)) ltac:(now rewrite map_length) i); auto.
    now rewrite nth_error_map, Hi.
  Qed.

  Lemma covered_map g site : covered site (ads s) (map g (ads s)) = site_load s g site.
  Proof.
    rewrite (covered_sum s P) by now rewrite map_length. unfold site_load. f_equal. apply map_ext_in.
    intros n Hn. apply on_In in Hn as [Hn _]. now apply map_coverage.
  Qed.

  Lemma constrained_feasible cvgs : length cvgs = length (ads s) ->
    exists c, constrain_coverages s cvgs = Ok c /\ feasible s c.
  Proof.
    intro Len. eexists. split; [now apply constrain_ok|].
    set (g := bounded s (coverage s cvgs)).
    assert (Hg : forall m, In m (ads s) -> (0 <= g m)%R) by (intros m Hm; now apply bounded_bounds).
    split; [now rewrite map_length|]. split.
    - intros i n x H1 H2. rewrite nth_error_map, H1 in H2. cbn in H2. injection H2 as <-.
      assert (Hn : In n (ads s)) by (eapply nth_error_In; eauto).
      pose proof (rescaled_bounds g n Hg Hn). pose proof (bounded_bounds (coverage s cvgs) n Hn) as B. fold g in B. lra.
    - intros site Hs. rewrite covered_map. now apply rescaled_load.
  Qed.

  Lemma feasible_unchanged cvgs : feasible s cvgs -> constrain_coverages s cvgs = Ok cvgs.
  Proof.
    intros (Len & B & S). rewrite constrain_ok by auto.
    assert (G : forall n, In n (ads s) -> bounded s (coverage s cvgs) n = coverage s cvgs n).
    { intros n Hn. destruct (In_nth_error _ _ Hn) as [i Hi].
      assert (Hl : i < length cvgs) by (rewrite Len; apply nth_error_Some; congruence).
      destruct (nth_error cvgs i) as [x|] eqn:Ex; [|apply nth_error_None in Ex; lia].
      rewrite (nth_coverage s P cvgs Len i n x Hi Ex) in *. destruct (B i n x Hi Ex) as [[B1 B2] B3].
      unfold bounded. rewrite (nth_coverage s P cvgs Len i n x Hi Ex).
      assert (clip01 x = x) as ->.
      { unfold clip01. destruct (Rltb 1 x) eqn:E1; [apply Rltb_true in E1; lra|].
        destruct (Rltb x 0) eqn:E2; [apply Rltb_true in E2; lra|]. reflexivity. }
      unfold clip_total. destruct (Rltb (total s (site_tag n)) x) eqn:E; [apply Rltb_true in E; lra|]. reflexivity. }
    f_equal. transitivity (map (coverage s cvgs) (ads s)); [|now apply coverages_list].
    apply map_ext_in. intros n Hn. unfold rescaled. rewrite (G n Hn).
    replace (site_load s (bounded s (coverage s cvgs)) (site_tag n)) with (covered (site_tag n) (ads s) cvgs).
    - destruct (Rltb (total s (site_tag n)) (covered (site_tag n) (ads s) cvgs)) eqn:E; auto.
      apply Rltb_true in E. destruct (ads_site s P n Hn) as [_ Hs]. specialize (S _ Hs). lra.
    - rewrite (covered_sum s P) by auto. unfold site_load. f_equal. apply map_ext_in. intros m Hm.
      apply on_In in Hm as [Hm _]. symmetry. auto.
  Qed.

  Lemma constrain_idempotent cvgs c : length cvgs = length (ads s) ->
    constrain_coverages s cvgs = Ok c -> constrain_coverages s c = Ok c.
  Proof.
    intros Len E. destruct (constrained_feasible cvgs Len) as (c' & E' & F).
    assert (c' = c) by congruence. subst. now apply feasible_unchanged.
  Qed.
End Constrain.
