(** Rates by index, time derivatives as net changes, turnover frequencies, Boltzmann
    coverages (C26-C28, C31, C53). *)
From Coq Require Import String Ascii List ZArith NArith Bool Arith Reals Lia Lra.
Import ListNotations.
From Verif Require Import PyBase PyBaseFacts Rxn_Model Rxn_Spec Rxn_Proofs Species_Model Species_Spec
  Species_Proofs Species_Matrix PyReal Energy_Model Energy_Spec Energy_Proofs Thermo_Model Rate_Model Rate_Spec
  Rate_Proofs PyExpr_Model PyExpr_Proofs MF_Model MF_Spec MF_Cover MF_Rate.
Local Open Scope nat_scope.
Local Open Scope list_scope.

Lemma nth_error_combine {A B} (a : list A) (b : list B) j x y :
  nth_error a j = Some x -> nth_error b j = Some y -> nth_error (combine a b) j = Some (x, y).
Proof.
  revert b j; induction a as [|u a IH]; intros b j H1 H2; destruct j; try discriminate; destruct b; try discriminate; cbn in *.
  - congruence.
  - now apply IH.
Qed.
Lemma nth_error_lt {A} (l : list A) j n : length l = n -> j < n -> exists x, nth_error l j = Some x.
Proof. intros <- H. destruct (nth_error l j) eqn:E; eauto. apply nth_error_None in E. lia. Qed.

(** ** C26: the exact result *)
Lemma covered_pointwise site names (g : str -> R) (b : list R) :
  (forall i n, nth_error names i = Some n -> nth_error b i = Some (g n)) ->
  covered site names b = Rsum (map g (on site names)).
Proof.
  revert b; induction names as [|n ns IH]; intros b H; [reflexivity|].
  pose proof (H 0 n eq_refl) as H0. destruct b as [|x b]; [discriminate|]. cbn in H0. injection H0 as ->.
  cbn [covered on]. unfold on. cbn [filter]. fold (on site ns).
  rewrite (IH b) by (intros i m Hi; apply (H (S i) m Hi)). destruct (str_eqb (site_tag n) site); cbn [map Rsum]; lra.
Qed.

Lemma clip_total_min t x : clip_total t x = Rmin x t.
Proof. unfold clip_total, Rltb, Rmin. destruct (Rlt_dec t x), (Rle_dec x t); lra. Qed.
Lemma clip01_minmax x : clip01 x = Rmax 0 (Rmin 1 x).
Proof.
  unfold clip01, Rltb, Rmin, Rmax. cbn zeta. destruct (Rlt_dec 1 x), (Rle_dec 1 x); try lra.
  - destruct (Rlt_dec 1 0), (Rle_dec 0 1); lra.
  - destruct (Rlt_dec x 0), (Rle_dec 0 1); lra.
  - destruct (Rlt_dec x 0), (Rle_dec 0 x); lra.
Qed.
Lemma clip_min x t : clip_total t (clip01 x) = Rmin (Rmax 0 (Rmin 1 x)) t.
Proof. now rewrite clip_total_min, clip01_minmax. Qed.

Lemma constrain_exact s cvgs : prepared s -> (forall site, In site (sites s) -> (0 <= total s site)%R) ->
  length cvgs = length (ads s) ->
  exists c, constrain_coverages s cvgs = Ok c /\ length c = length (ads s) /\
    forall i n x, nth_error (ads s) i = Some n -> nth_error (clipped s cvgs) i = Some x ->
      nth_error c i = Some (x * share s (clipped s cvgs) (site_tag n))%R.
Proof.
  intros P Tot Len. eexists. split; [now apply constrain_ok|]. split; [now rewrite map_length|].
  assert (C : forall i n, nth_error (ads s) i = Some n ->
     nth_error (clipped s cvgs) i = Some (bounded s (coverage s cvgs) n)).
  { intros i n Hi. assert (Hl : i < length (ads s)) by (apply nth_error_Some; congruence).
    destruct (nth_error_lt cvgs i _ Len Hl) as [x Hx]. unfold clipped.
    rewrite (map_nth_error _ i (combine (ads s) cvgs) (nth_error_combine _ _ _ _ _ Hi Hx)). cbn [fst snd].
    unfold bounded. rewrite (nth_coverage s P cvgs Len i n x Hi Hx). now rewrite clip_min. }
  intros i n x Hi Hx. rewrite (map_nth_error _ i (ads s) Hi). f_equal.
  rewrite (C i n Hi) in Hx. injection Hx as <-. unfold share.
  rewrite (covered_pointwise _ _ (bounded s (coverage s cvgs))) by exact C.
  unfold rescaled, site_load. cbn zeta. unfold Rltb.
  destruct (Rle_dec (Rsum (map (bounded s (coverage s cvgs)) (on (site_tag n) (ads s)))) (total s (site_tag n)));
    destruct (Rlt_dec (total s (site_tag n)) (Rsum (map (bounded s (coverage s cvgs)) (on (site_tag n) (ads s)))));
    unfold Rdiv; lra.
Qed.

(** ** C27 by index *)
Section Setup.
  Variable s : setup.
  Hypothesis U : usable_setup s.
  Variables (cvgs : list R) (kf kr : list R).
  Hypothesis Len : length cvgs = length (ads s).
  Hypothesis Lf : length kf = length (s_exprs s).
  Hypothesis Lr : length kr = length (s_exprs s).

  Lemma rates_indexed : exists data rfs rrs,
    get_data s = Ok data /\ rates s (Ok (kf, kr)) (Some data) cvgs = Ok (rfs, rrs) /\
    length rfs = length (s_exprs s) /\ length rrs = length (s_exprs s) /\
    forall i j e fls first last a b,
      nth_error (s_exprs s) i = Some e -> first_position (s_exprs s) e j ->
      nth_error (l_rxns (s_lists s)) i = Some fls -> lfirst fls = Ok first -> llast fls = Ok last ->
      nth_error kf j = Some a -> nth_error kr j = Some b ->
      nth_error rfs i = Some (mass_action s cvgs a first) /\
      nth_error rrs i = Some (mass_action s cvgs b last).
  Proof.
    destruct (rates_ok s U cvgs kf kr Len Lf Lr) as (data & rfs & rrs & E1 & E2 & L1 & L2 & F).
    exists data, rfs, rrs. do 4 (split; [assumption|]).
    intros i j e fls first last a b He Hj Hf H1 H2 Ha Hb.
    destruct (formula_list_at s U i e He) as (fls' & En & Ef). assert (fls' = fls) by congruence. subst fls'.
    assert (Hi : i < length (s_exprs s)) by (apply nth_error_Some; congruence).
    destruct (nth_error_lt rfs i _ L1 Hi) as [x Hx]. destruct (nth_error_lt rrs i _ L2 Hi) as [y Hy].
    destruct (Forall2_at _ _ _ i e F He) as (p & Hp & Q). rewrite (nth_error_combine _ _ _ _ _ Hx Hy) in Hp.
    injection Hp as <-. cbn [fst snd] in Q.
    destruct (Q j fls first last a b Hj Ef H1 H2 Ha Hb) as [-> ->]. auto.
  Qed.

  (** ** C28 by index *)
  Lemma steady_indexed : exists data rfs rrs F,
    get_data s = Ok data /\ rates s (Ok (kf, kr)) (Some data) cvgs = Ok (rfs, rrs) /\
    steady_state_function s (Ok (kf, kr)) (Some data) cvgs = Ok F /\ length F = length (ads s) /\
    forall i name x, nth_error (ads s) i = Some name -> nth_error F i = Some x ->
    exists cs, length cs = length (s_exprs s) /\ x = Rsum cs /\
      forall j fls rf rr c, nth_error (l_rxns (s_lists s)) j = Some fls ->
        nth_error rfs j = Some rf -> nth_error rrs j = Some rr -> nth_error cs j = Some c ->
        counted_change name fls rf rr c.
  Proof.
    destruct (rates_ok s U cvgs kf kr Len Lf Lr) as (data & rfs & rrs & E1 & E2 & L1 & L2 & F).
    destruct (steady_ok s U cvgs kf kr Len Lf Lr) as (data' & G & E3 & E4 & C).
    assert (data' = data) by congruence. subst data'.
    exists data, rfs, rrs, G. do 3 (split; [assumption|]).
    split; [now rewrite (Forall2_length _ _ _ C)|].
    intros i name x Hi Hx. destruct (Forall2_at _ _ _ i name C Hi) as (x' & Hx' & cs & Q & Ex).
    assert (x' = x) by congruence. subst x'. exists cs. split; [now rewrite (Forall2_length _ _ _ Q)|].
    split; auto. intros j fls rf rr c Hf Hrf Hrr Hc.
    assert (Hj : j < length (s_exprs s)).
    { rewrite <- (num_rxns s U). apply nth_error_Some. congruence. }
    destruct (nth_error_lt (s_exprs s) j _ eq_refl Hj) as [e He].
    destruct (formula_list_at s U j e He) as (fls' & En & Ef). assert (fls' = fls) by congruence. subst fls'.
    destruct (Forall2_at _ _ _ j e F He) as (p & Hp & W). rewrite (nth_error_combine _ _ _ _ _ Hrf Hrr) in Hp.
    injection Hp as <-. cbn [fst snd] in W.
    destruct (Forall2_at _ _ _ j e Q He) as (c' & Hc' & V). assert (c' = c) by congruence. subst c'.
    now apply V.
  Qed.
End Setup.

(** Absent species have no net amount. *)
Lemma total_absent name st : (forall g, In g st -> f_species_site g <> name) -> total_of_species name st = 0%Z.
Proof.
  induction st as [|f st IH]; intro H; auto. unfold total_of_species in *. cbn [map sum_Z].
  rewrite IH by (intros; apply H; now right).
  assert (f_species_site f <> name) as N by (apply H; now left). apply str_eqb_neq in N. now rewrite N.
Qed.
Lemma total_once name before f after : f_species_site f = name -> absent name [before; after] ->
  total_of_species name (before ++ f :: after) = f_stoich f.
Proof.
  intros E A. pose proof (total_absent name before (fun g => A before g (or_introl eq_refl))) as B.
  pose proof (total_absent name after (fun g => A after g (or_intror (or_introl eq_refl)))) as C.
  unfold total_of_species in *. rewrite map_app. cbn [map]. rewrite E, str_eqb_refl.
  clear A. induction before as [|g before IH]; cbn [map app sum_Z] in *; [lia|].
  assert (D : forall l l', sum_Z (l ++ l') = (sum_Z l + sum_Z l')%Z) by (induction l; intro; cbn; [auto|rewrite IHl; lia]).
  rewrite D in *. cbn [sum_Z] in *. lia.
Qed.

Lemma met_first_unique name fls i n j m : met_first name fls i n -> met_first name fls j m -> i = j /\ n = m.
Proof.
  intros (st & b & f & a & H1 & H2 & H3 & H4 & H5 & H6) (st' & b' & f' & a' & K1 & K2 & K3 & K4 & K5 & K6).
  destruct (Nat.lt_trichotomy i j) as [L0|[->|L0]].
  - exfalso. apply (K6 i st L0 H1 f); auto. subst st. apply in_or_app. right. now left.
  - split; auto. assert (E0 : b ++ f :: a = b' ++ f' :: a') by congruence. clear K1 K6 H1 H6 H2 K2. subst n m.
    revert b' E0 K5. induction b as [|g b IH]; intros [|g' b'] E K5; cbn in E.
    + congruence.
    + injection E as E1 E2. exfalso. apply (K5 g'); [now left|]. congruence.
    + injection E as E1 E2. exfalso. apply (H5 g); [now left|]. congruence.
    + injection E as E1 E2. apply (IH (fun h Hh => H5 h (or_intror Hh)) b'); auto. intros h Hh. apply K5. now right.
  - exfalso. apply (H6 j st' L0 K1 f'); auto. subst st'. apply in_or_app. right. now left.
Qed.

Lemma met_not_absent name fls i n : met_first name fls i n -> ~ absent name fls.
Proof.
  intros (st & b & f & a & H1 & H2 & H3 & _) A. apply (A st f); auto; [eapply nth_error_In; eauto|].
  subst st. apply in_or_app. right. now left.
Qed.

Lemma plain_change name fls rf rr c : plain_in name fls -> counted_change name fls rf rr c ->
  net_change name fls (rf - rr) c.
Proof.
  intros Pl C first last H1 H2. unfold net_consumption. destruct Pl as [A|[(b & f & a & mid & la & E & Ef & A)|(b & f & a & fr & E & N & Ef & A)]].
  - rewrite (total_absent name first), (total_absent name last).
    + destruct C as [[_ ->]|[(n & M & _)|(i & n & M & _)]].
      * change (IZR (0 - 0)) with 0%R. ring.
      * exfalso. eapply met_not_absent; eauto.
      * exfalso. eapply met_not_absent; eauto.
    + intros g Hg. apply (A last g); auto. now apply llast_In.
    + intros g Hg. apply (A first g); auto. now apply lfirst_In.
  - assert (first = b ++ f :: a) by (subst fls; cbn in H1; congruence). subst first.
    assert (last = la). { subst fls. rewrite app_comm_cons, llast_app in H2. congruence. } subst la.
    rewrite (total_once name b f a Ef), (total_absent name last).
    + assert (M0 : met_first name fls 0 (f_stoich f)).
      { exists (b ++ f :: a), b, f, a. subst fls. repeat split; auto.
        - intros g Hg. apply (A b g); auto. now left.
        - intros k st' Hk. lia. }
      destruct C as [[Ab _]|[(n & M & ->)|(i & n & M & _)]].
      * exfalso. eapply met_not_absent; eauto.
      * destruct (met_first_unique _ _ _ _ _ _ M0 M) as [_ <-]. rewrite Z.sub_0_r. ring.
      * destruct (met_first_unique _ _ _ _ _ _ M0 M) as [? _]. discriminate.
    + intros g Hg. apply (A last g); auto. right. right. now left.
    + intros st g [<-|[<-|[]]] Hg; [apply (A b g)|apply (A a g)]; auto; [now left|right; now left].
  - assert (last = b ++ f :: a). { subst fls. rewrite llast_app in H2. congruence. } subst last.
    assert (In first fr). { destruct fr as [|x fr]; [congruence|]. subst fls. cbn in H1. injection H1 as ->. now left. }
    rewrite (total_once name b f a Ef), (total_absent name first).
    + assert (M0 : met_first name fls (length fr) (f_stoich f)).
      { exists (b ++ f :: a), b, f, a. subst fls. split; [rewrite nth_error_app2, Nat.sub_diag; auto|].
        repeat split; auto.
        - intros g Hg. apply (A b g); auto. now left.
        - intros k st' Hk Hn g Hg. rewrite nth_error_app1 in Hn by auto.
          apply (A st' g); auto. right. right. eapply nth_error_In; eauto. }
      destruct C as [[Ab _]|[(n & M & _)|(i & n & M & ->)]].
      * exfalso. eapply met_not_absent; eauto.
      * destruct (met_first_unique _ _ _ _ _ _ M0 M) as [El _]. destruct fr; [congruence|discriminate].
      * destruct (met_first_unique _ _ _ _ _ _ M0 M) as [_ <-].
        rewrite Z.sub_0_l, opp_IZR. ring.
    + intros g Hg. apply (A first g); auto. right. now right.
    + intros st g [<-|[<-|[]]] Hg; [apply (A b g)|apply (A a g)]; auto; [now left|right; now left].
Qed.

Lemma steady_net s cvgs kf kr : usable_setup s -> length cvgs = length (ads s) ->
  length kf = length (s_exprs s) -> length kr = length (s_exprs s) ->
  exists data rfs rrs F,
    get_data s = Ok data /\ rates s (Ok (kf, kr)) (Some data) cvgs = Ok (rfs, rrs) /\
    steady_state_function s (Ok (kf, kr)) (Some data) cvgs = Ok F /\ length F = length (ads s) /\
    forall i name x, nth_error (ads s) i = Some name -> nth_error F i = Some x ->
    (forall fls, In fls (l_rxns (s_lists s)) -> plain_in name fls) ->
    exists cs, length cs = length (s_exprs s) /\ x = Rsum cs /\
      forall j fls rf rr c, nth_error (l_rxns (s_lists s)) j = Some fls ->
        nth_error rfs j = Some rf -> nth_error rrs j = Some rr -> nth_error cs j = Some c ->
        net_change name fls (rf - rr) c.
Proof.
  intros U Len Lf Lr. destruct (steady_indexed s U cvgs kf kr Len Lf Lr) as (data & rfs & rrs & F & E1 & E2 & E3 & LF & H).
  exists data, rfs, rrs, F. do 4 (split; [assumption|]). intros i name x Hi Hx Pl.
  destruct (H i name x Hi Hx) as (cs & L1 & Ex & C). exists cs. do 2 (split; [assumption|]).
  intros j fls rf rr c Hf H1 H2 H3. apply plain_change; [apply Pl; eapply nth_error_In; eauto|eauto].
Qed.

(** ** Net rates and reversibilities *)
Lemma net_rates_ok s ks data cvgs rfs rrs : rates s ks data cvgs = Ok (rfs, rrs) ->
  length rfs = length rrs ->
  exists nets, net_rates s ks data cvgs = Ok nets /\ length nets = length rfs /\
    forall i a b, nth_error rfs i = Some a -> nth_error rrs i = Some b -> nth_error nets i = Some (a - b)%R.
Proof.
  intros E L0. unfold net_rates. rewrite E. cbn [bind]. eexists. split; [reflexivity|].
  split; [rewrite map_length, combine_length; lia|]. intros i a b Ha Hb.
  now rewrite (map_nth_error _ i _ (nth_error_combine _ _ _ _ _ Ha Hb)).
Qed.

Lemma net_rates_error s ks data cvgs er : rates s ks data cvgs = Err er -> net_rates s ks data cvgs = Err er.
Proof. intro E. unfold net_rates. now rewrite E. Qed.

Lemma reversibilities_ok rfs rrs : length rfs = length rrs -> (forall x, In x rfs -> x <> 0%R) ->
  exists l, reversibilities rfs rrs = Ok l /\ length l = length rfs /\
    forall i a b, nth_error rfs i = Some a -> nth_error rrs i = Some b -> nth_error l i = Some (b / a)%R.
Proof.
  intros L0 H. unfold reversibilities. rewrite L0, Nat.eqb_refl. cbn [negb].
  revert rrs L0. induction rfs as [|x rfs IH]; intros [|y rrs] L0; try discriminate.
  - exists []. repeat split; auto. intros [|i] a b Ha; discriminate.
  - cbn [combine mapM fst snd]. rewrite pydiv_ok by (apply H; now left). cbn [bind].
    destruct (IH (fun z Hz => H z (or_intror Hz)) rrs) as (l & -> & L1 & N); [cbn in L0; lia|].
    exists ((y / x)%R :: l). split; [reflexivity|]. split; [cbn; lia|].
    intros [|i] a b Ha Hb; cbn in *; [congruence|eauto].
Qed.
Lemma reversibilities_error rfs rrs :
  (length rfs <> length rrs -> reversibilities rfs rrs = Err ValueError) /\
  (length rfs = length rrs -> In 0%R rfs -> reversibilities rfs rrs = Err ZeroDivisionError).
Proof.
  unfold reversibilities. split.
  - intro N. apply Nat.eqb_neq in N. now rewrite N.
  - intros L0 H. rewrite L0, Nat.eqb_refl. cbn [negb].
    revert rrs L0. induction rfs as [|x rfs IH]; intros [|y rrs] L0; try discriminate; [destruct H|].
    cbn [combine mapM fst snd]. destruct (Req_dec x 0) as [->|Nx].
    + now rewrite pydiv_zero.
    + rewrite pydiv_ok by auto. cbn [bind]. rewrite IH; auto. destruct H; [lra|auto].
Qed.

(** ** Rate constants *)
Lemma rate_constants_TST ec o given own r : (0 < o_T o)%R ->
  match given with Some x => x = r | None => own = Some r end ->
  (forall e, In e (o_rxns o) -> exists a b c, energies_of o r e a b c) ->
  exists kf kr, rate_constants ec o (L "TST") given own = Ok (kf, kr) /\
    length kf = length (o_rxns o) /\ length kr = length (o_rxns o) /\
    forall i e a b c, nth_error (o_rxns o) i = Some e -> energies_of o r e a b c ->
      nth_error kf i = Some (frequency (o_T o) * exp (- a / kT (o_T o)))%R /\
      nth_error kr i = Some (frequency (o_T o) * exp (- b / kT (o_T o)))%R.
Proof.
  intros HT G H. unfold rate_constants.
  assert ((match given with Some r0 => Ok r0 | None => match own with Some r0 => Ok r0 | None => Err AttributeError end end) = Ok r) as ->.
  { destruct given; [now subst|]. now rewrite G. }
  cbn [bind]. rewrite str_eqb_refl. cbn [bind].
  assert (M : exists l, mapM (fun e => rates_TST o e r false) (o_rxns o) = Ok l /\
    Forall2 (fun e p => forall a b c, energies_of o r e a b c ->
       p = (frequency (o_T o) * exp (- a / kT (o_T o)), frequency (o_T o) * exp (- b / kT (o_T o)))%R) (o_rxns o) l).
  { clear G. assert (K : forall es, (forall e, In e es -> In e (o_rxns o)) ->
      exists l, mapM (fun e => rates_TST o e r false) es = Ok l /\
      Forall2 (fun e p => forall a b c, energies_of o r e a b c ->
       p = (frequency (o_T o) * exp (- a / kT (o_T o)), frequency (o_T o) * exp (- b / kT (o_T o)))%R) es l).
    { induction es as [|e es IH]; intro I; [exists []; split; [reflexivity|constructor]|].
      destruct (H e (I e (or_introl eq_refl))) as (a & b & c & Hen).
      destruct (IH (fun x Hx => I x (or_intror Hx))) as (l & E & F).
      cbn [mapM]. rewrite (rates_TST_plain o e r a b c HT Hen). cbn [bind]. rewrite E. cbn [bind].
      eexists. split; [reflexivity|]. constructor; auto. intros a' b' c' Hen'.
      pose proof (rates_TST_plain o e r a b c HT Hen) as E1. pose proof (rates_TST_plain o e r a' b' c' HT Hen') as E2.
      rewrite E1 in E2. injection E2 as E2 E3. now rewrite E2, E3. }
    exact (K _ (fun e He => He)). }
  destruct M as (l & -> & F). cbn [bind]. pose proof (Forall2_length _ _ _ F) as Ll.
  exists (map fst l), (map snd l). split; [reflexivity|]. rewrite !map_length. do 2 (split; [congruence|]).
  intros i e a b c Hi Hen. destruct (Forall2_at _ _ _ i e F Hi) as (p & Hp & Q).
  rewrite (map_nth_error fst i l Hp), (map_nth_error snd i l Hp). rewrite (Q a b c Hen). auto.
Qed.

Lemma rate_constants_each ec o algo given own kf kr : rate_constants ec o algo given own = Ok (kf, kr) ->
  exists r, match given with Some x => x = r | None => own = Some r end /\
    length kf = length (o_rxns o) /\ length kr = length (o_rxns o) /\
    forall i e a b, nth_error (o_rxns o) i = Some e -> nth_error kf i = Some a -> nth_error kr i = Some b ->
      (algo = L "TST" /\ rates_TST o e r false = Ok (a, b)) \/
      (algo = L "CT" /\ rates_CT ec o e r false = Ok (a, b)).
Proof.
  unfold rate_constants. intro E.
  destruct (match given with Some r => Ok r | None => match own with Some r => Ok r | None => Err AttributeError end end) as [r|] eqn:G;
    cbn [bind] in E; [|discriminate].
  exists r. split; [destruct given; [now injection G|destruct own; [now injection G as ->|discriminate]]|].
  destruct (if str_eqb algo (L "TST") then Ok (fun e => rates_TST o e r false)
            else if str_eqb algo (L "CT") then Ok (fun e => rates_CT ec o e r false) else Err ValueError) as [f|] eqn:Ef;
    cbn [bind] in E; [|discriminate].
  destruct (mapM f (o_rxns o)) as [l|] eqn:M; cbn [bind] in E; [|discriminate]. injection E as <- <-.
  pose proof (mapM_length _ _ _ M) as Ll. rewrite !map_length. do 2 (split; [congruence|]).
  apply mapM_ok_iff in M. intros i e a b Hi Ha Hb. destruct (Forall2_at _ _ _ i e M Hi) as ([u w] & Hp & Q).
  rewrite (map_nth_error fst i l Hp) in Ha. rewrite (map_nth_error snd i l Hp) in Hb. cbn in Ha, Hb.
  injection Ha as ->. injection Hb as ->.
  destruct (str_eqb_spec algo (L "TST")); [left|destruct (str_eqb_spec algo (L "CT")); [right|discriminate]];
    split; auto; injection Ef as <-; auto.
Qed.

Lemma rate_constants_reject ec o algo given own : algo <> L "TST" -> algo <> L "CT" ->
  (given <> None \/ own <> None -> rate_constants ec o algo given own = Err ValueError) /\
  (given = None -> own = None -> rate_constants ec o algo given own = Err AttributeError).
Proof.
  intros N1 N2. unfold rate_constants. apply str_eqb_neq in N1, N2. rewrite N1, N2. split.
  - intros [G|G]; destruct given; try congruence; cbn [bind]; auto. destruct own; [reflexivity|congruence].
  - intros -> ->. reflexivity.
Qed.

(** ** C31 *)
Definition consumption (fls : list (list formula)) (n : str) : Z :=
  match lfirst fls, llast fls with Ok a, Ok b => net_consumption n a b | _, _ => 0%Z end.

Lemma list_ext {A} (l l' : list A) : length l = length l' ->
  (forall i x, nth_error l' i = Some x -> nth_error l i = Some x) -> l = l'.
Proof.
  revert l'; induction l as [|y l IH]; intros [|x l'] L0 H; try discriminate; auto.
  f_equal; [specialize (H 0 x eq_refl); cbn in H; congruence|]. apply IH; [cbn in L0; lia|].
  intros i z Hi. apply (H (S i) z Hi).
Qed.

Lemma consumption_rows es p : parse_rxns es = Ok p ->
  stoichiometry_matrices p
  = Ok (map (fun fls => map (consumption fls) (l_site p ++ l_ads p)) (l_rxns p),
        map (fun fls => map (consumption fls) (l_gas p ++ l_liq p)) (l_rxns p)).
Proof.
  intro H. destruct (matrices_net es p H) as (sm & rm & E & L1 & L2 & N). rewrite E.
  destruct (parse_rxns_facts _ _ H) as (M & _). apply mapM_length in M.
  assert (Q : forall (m : list (list Z)) cols, length m = length (l_rxns p) ->
    (forall i rxn first last, nth_error (l_rxns p) i = Some rxn -> lfirst rxn = Ok first -> llast rxn = Ok last ->
       nth_error m i = Some (map (fun n => net_consumption n first last) cols)) ->
    m = map (fun fls => map (consumption fls) cols) (l_rxns p)).
  { intros m cols Lm K. apply list_ext; [now rewrite map_length|]. intros i x Hx.
    rewrite nth_error_map in Hx. destruct (nth_error (l_rxns p) i) as [rxn|] eqn:Ei; [|discriminate].
    cbn in Hx. injection Hx as <-.
    destruct (parse_rxns_rxn _ _ _ H (nth_error_In _ _ Ei)) as (_ & _ & _ & _ & Nn).
    destruct (lfirst_ok rxn Nn) as [a Ea]. destruct (llast_ok rxn Nn) as [b Eb].
    rewrite (K i rxn a b Ei Ea Eb). f_equal. apply map_ext. intro n. unfold consumption. now rewrite Ea, Eb. }
  do 2 f_equal; apply Q; try congruence; intros; edestruct N; eauto.
Qed.

Lemma map_nth_seq {A B} (d : A) (g : A -> B) l : map (fun j => g (nth j l d)) (seq 0 (length l)) = map g l.
Proof.
  induction l as [|x l IH]; [reflexivity|]. cbn [length seq map nth]. f_equal.
  rewrite <- seq_shift, map_map. exact IH.
Qed.

Lemma Rsum_ext {A} (f g : A -> R) l : (forall x, In x l -> f x = g x) -> Rsum (map f l) = Rsum (map g l).
Proof. intro H. f_equal. now apply map_ext_in. Qed.

Definition tof_value (rxns : list (list (list formula))) (nets : list R) (n : str) : R :=
  Rsum (map (fun p => - IZR (consumption (fst p) n) * snd p)%R (combine rxns nets)).

Lemma combine_map_r {A B C} (g : B -> C) (a : list A) (b : list B) :
  combine a (map g b) = map (fun p => (fst p, g (snd p))) (combine a b).
Proof. revert b; induction a as [|x a IH]; intros [|y b]; cbn; auto. now rewrite IH. Qed.
Lemma combine_swap {A B} (a : list A) (b : list B) : combine a b = map (fun p => (snd p, fst p)) (combine b a).
Proof. revert b; induction a as [|x a IH]; intros [|y b]; cbn; auto. now rewrite IH. Qed.

Lemma tofs_ok s ks data cvgs nets : prepared s -> net_rates s ks data cvgs = Ok nets ->
  length nets = length (s_exprs s) ->
  tofs s ks data cvgs = Ok (map (tof_value (l_rxns (s_lists s)) nets) (l_gas (s_lists s) ++ l_liq (s_lists s))).
Proof.
  intros P E Ln. unfold tofs. rewrite E. cbn [bind]. rewrite (consumption_rows _ _ (proj1 P)). cbn [bind].
  unfold vec_mat. rewrite !map_length. destruct (parse_rxns_facts _ _ (proj1 P)) as (M & _). apply mapM_length in M.
  assert (length nets = length (l_rxns (s_lists s))) as -> by congruence. rewrite Nat.eqb_refl. cbn [negb].
  f_equal. set (cols := l_gas (s_lists s) ++ l_liq (s_lists s)).
  etransitivity; [|apply (map_nth_seq [] (tof_value (l_rxns (s_lists s)) nets) cols)]. apply map_ext_in. intros j Hj.
  apply in_seq in Hj. unfold tof_value. rewrite !combine_map_r, !map_map. cbn [fst snd].
  rewrite (combine_swap (l_rxns (s_lists s)) nets), map_map. apply Rsum_ext. intros [r fls] _. cbn [fst snd].
  rewrite map_map. rewrite (nth_indep _ 0%Z ((fun n => (consumption fls n * -1)%Z) [])) by (rewrite map_length; exact (proj2 Hj)).
  rewrite (map_nth (fun n => (consumption fls n * -1)%Z)). rewrite mult_IZR.
  change (nth j cols (@nil ascii)) with (nth j cols (@nil ascii : str)). ring.
Qed.

Lemma tof_of_ok s ks data cvgs l gas : tofs s ks data cvgs = Ok l ->
  (forall i x, index_of gas (l_gas (s_lists s)) = Some i -> nth_error l i = Some x -> tof_of s ks data cvgs gas = Ok x) /\
  (~ In gas (l_gas (s_lists s)) -> tof_of s ks data cvgs gas = Err ParameterError).
Proof.
  intro E. unfold tof_of. rewrite E. cbn [bind]. split.
  - intros i x -> Hx. unfold lindex. now rewrite Hx.
  - intro N. apply index_of_None in N. now rewrite N.
Qed.

Lemma weighted_sum_map w (g : str -> R) names :
  weighted_sum w names (map g names) = Rsum (map (fun n => IZR (w n) * g n)%R names).
Proof. induction names as [|n ns IH]; cbn; auto. now rewrite IH. Qed.

Lemma Rsum_add {A} (f g : A -> R) l : Rsum (map (fun x => f x + g x)%R l) = (Rsum (map f l) + Rsum (map g l))%R.
Proof. induction l as [|x l IH]; cbn; [ring|rewrite IH; ring]. Qed.
Lemma Rsum_mul {A} (f : A -> R) c l : Rsum (map (fun x => c * f x)%R l) = (c * Rsum (map f l))%R.
Proof. induction l as [|x l IH]; cbn; [ring|rewrite IH; ring]. Qed.
Lemma Rsum_zero {A} (f : A -> R) l : (forall x, In x l -> f x = 0%R) -> Rsum (map f l) = 0%R.
Proof. induction l as [|x l IH]; intro H; cbn; auto. rewrite (H x) by now left. rewrite IH; [ring|]. intros; apply H; now right. Qed.

Lemma swap_sums (w : str -> Z) rxns nets names :
  Rsum (map (fun n => IZR (w n) * tof_value rxns nets n)%R names)
  = Rsum (map (fun p => - IZR (sum_Z (map (fun n => (w n * consumption (fst p) n)%Z) names)) * snd p)%R (combine rxns nets)).
Proof.
  induction names as [|n ns IH]; cbn [map Rsum sum_Z].
  - symmetry. apply Rsum_zero. intros. ring.
  - rewrite IH. unfold tof_value. rewrite <- Rsum_mul, <- Rsum_add. apply Rsum_ext. intros [fls r] _. cbn [fst snd].
    rewrite plus_IZR, mult_IZR. ring.
Qed.

Lemma star_atoms x site : forallb is_site_char site = true -> name_atoms x (L "*_" ++ site) = 0%Z.
Proof.
  intro T. unfold name_atoms. change (L "*_" ++ site) with (L "*" ++ "_"%char :: [] ++ site).
  destruct (last_underscore_split (L "*") ([] ++ site)) as [E _]; [now apply no_underscore_digits_site|].
  rewrite E. reflexivity.
Qed.

Lemma sum_Z_app a b : sum_Z (a ++ b) = (sum_Z a + sum_Z b)%Z.
Proof. induction a; cbn; auto. rewrite IHa. lia. Qed.

Lemma row_balance s fls x : usable_setup s -> In fls (l_rxns (s_lists s)) ->
  (sum_Z (map (fun n => (name_atoms x n * consumption fls n)%Z) (ads s))
   + sum_Z (map (fun n => (name_atoms x n * consumption fls n)%Z) (l_gas (s_lists s) ++ l_liq (s_lists s))))%Z = 0%Z.
Proof.
  intros [P Us] Hf. destruct (parse_rxns_rxn _ _ _ (proj1 P) Hf) as (_ & _ & _ & _ & Nn).
  destruct (lfirst_ok fls Nn) as [a Ea]. destruct (llast_ok fls Nn) as [b Eb].
  destruct (Us fls Hf a b Ea Eb) as [[T1 _] [T2 _]].
  destruct (In_nth_error _ _ Hf) as [i Hi].
  destruct (rows_conserve (s_exprs s) (s_lists s) (proj1 P) i fls a b
    (map (consumption fls) (l_site (s_lists s) ++ l_ads (s_lists s)))
    (map (consumption fls) (l_gas (s_lists s) ++ l_liq (s_lists s))) _ _ (consumption_rows _ _ (proj1 P)) Hi Ea Eb) as [B _]; auto.
  { now rewrite (map_nth_error _ i _ Hi). }
  { now rewrite (map_nth_error _ i _ Hi). }
  specialize (B x). rewrite !weighted_map in B. rewrite map_app, sum_Z_app in B.
  assert (Z0 : sum_Z (map (fun n => (name_atoms x n * consumption fls n)%Z) (l_site (s_lists s))) = 0%Z).
  { destruct (parse_rxns_facts _ _ (proj1 P)) as (M & _ & _ & _ & _ & _ & _ & _ & _ & _ & S0).
    assert (forall n, In n (l_site (s_lists s)) -> name_atoms x n = 0%Z) as Z1.
    { intros n Hn. apply S0 in Hn as (f & O & _ & ->). apply star_atoms.
      pose proof (occurs_readable _ _ f M O) as R. now destruct (readable_name f R) as (? & _ & _ & _ & _ & _ & _ & ?). }
    clear -Z1. induction (l_site (s_lists s)) as [|n ns IH]; cbn; auto. rewrite Z1 by now left. rewrite IH; auto.
    intros; apply Z1; now right. }
  unfold ads. lia.
Qed.

(** Atoms gained by the gas and liquid phases and by the surface cancel, whatever the coverages. *)
Lemma conservation s cvgs kf kr x : usable_setup s -> length cvgs = length (ads s) ->
  length kf = length (s_exprs s) -> length kr = length (s_exprs s) ->
  (forall name fls, In name (ads s) -> In fls (l_rxns (s_lists s)) -> plain_in name fls) ->
  exists data F tof,
    get_data s = Ok data /\ steady_state_function s (Ok (kf, kr)) (Some data) cvgs = Ok F /\
    tofs s (Ok (kf, kr)) (Some data) cvgs = Ok tof /\
    (weighted_sum (name_atoms x) (l_gas (s_lists s) ++ l_liq (s_lists s)) tof
     + weighted_sum (name_atoms x) (ads s) F = 0)%R.
Proof.
  intros U Len Lf Lr Pl.
  destruct (steady_net s cvgs kf kr U Len Lf Lr) as (data & rfs & rrs & F & E1 & E2 & E3 & LF & H).
  destruct (rates_indexed s U cvgs kf kr Len Lf Lr) as (data' & rfs' & rrs' & E1' & E2' & L1 & L2 & _).
  assert (data' = data) by congruence. subst data'. rewrite E2 in E2'. injection E2' as <- <-.
  destruct (net_rates_ok s _ _ _ _ _ E2) as (nets & E4 & L4 & N); [congruence|].
  exists data, F. eexists. do 2 (split; [assumption|]).
  split; [apply tofs_ok; [exact (proj1 U)|exact E4|congruence]|].
  assert (EF : F = map (tof_value (l_rxns (s_lists s)) nets) (ads s)).
  { apply list_ext; [now rewrite map_length|]. intros i y Hy. rewrite nth_error_map in Hy.
    destruct (nth_error (ads s) i) as [name|] eqn:Hi; [|discriminate]. cbn in Hy. injection Hy as <-.
    assert (Hl : i < length (ads s)) by (apply nth_error_Some; congruence).
    destruct (nth_error_lt F i _ LF Hl) as [y Hy]. rewrite Hy. f_equal.
    destruct (H i name y Hi Hy) as (cs & Lc & -> & C).
    { intros fls Hf. apply Pl; auto. eapply nth_error_In; eauto. }
    unfold tof_value. f_equal. pose proof (num_rxns s U) as Nr.
    apply list_ext; [rewrite map_length, combine_length; lia|].
    intros j z Hz. rewrite nth_error_map in Hz.
    destruct (nth_error (combine (l_rxns (s_lists s)) nets) j) as [[fls r]|] eqn:Hj; [|discriminate].
    cbn in Hz. injection Hz as <-.
    assert (Hlj : j < length (s_exprs s)).
    { assert (j < length (combine (l_rxns (s_lists s)) nets)) by (apply nth_error_Some; congruence).
      rewrite combine_length in *. lia. }
    destruct (nth_error_lt (l_rxns (s_lists s)) j _ Nr Hlj) as [fls' Hf'].
    destruct (nth_error_lt rfs j _ L1 Hlj) as [a Ha]. destruct (nth_error_lt rrs j _ L2 Hlj) as [b Hb].
    destruct (nth_error_lt cs j _ Lc Hlj) as [c Hc].
    rewrite (nth_error_combine _ _ _ _ _ Hf' (N j a b Ha Hb)) in Hj. injection Hj as -> <-.
    rewrite Hc. f_equal. pose proof (nth_error_In _ _ Hf') as HIn.
    destruct (parse_rxns_rxn _ _ _ (proj1 (proj1 U)) HIn) as (_ & _ & _ & _ & Nn).
    destruct (lfirst_ok fls Nn) as [u Eu]. destruct (llast_ok fls Nn) as [w Ew].
    rewrite (C j fls a b c Hf' Ha Hb Hc u w Eu Ew). unfold consumption. now rewrite Eu, Ew. }
  rewrite EF, !weighted_sum_map, !swap_sums, <- Rsum_add. apply Rsum_zero. intros [fls r] Hp. cbn [fst snd].
  apply in_combine_l in Hp. pose proof (row_balance s fls x U Hp) as B.
  apply (f_equal IZR) in B. rewrite plus_IZR in B.
  match goal with |- (- ?a * r + - ?b * r)%R = 0%R => replace (- a * r + - b * r)%R with (- (b + a) * r)%R by ring end.
  rewrite B. ring.
Qed.

Lemma weighted_sum_zeros w names F : (forall y, In y F -> y = 0%R) -> weighted_sum w names F = 0%R.
Proof.
  revert F; induction names as [|n ns IH]; intros [|y F] H; cbn; auto.
  rewrite (H y) by now left. rewrite IH; [ring|]. intros; apply H; now right.
Qed.

Lemma steady_balance s cvgs kf kr x : usable_setup s -> length cvgs = length (ads s) ->
  length kf = length (s_exprs s) -> length kr = length (s_exprs s) ->
  (forall name fls, In name (ads s) -> In fls (l_rxns (s_lists s)) -> plain_in name fls) ->
  forall data F, get_data s = Ok data -> steady_state_function s (Ok (kf, kr)) (Some data) cvgs = Ok F ->
  (forall y, In y F -> y = 0%R) ->
  exists tof, tofs s (Ok (kf, kr)) (Some data) cvgs = Ok tof /\
    weighted_sum (name_atoms x) (l_gas (s_lists s) ++ l_liq (s_lists s)) tof = 0%R.
Proof.
  intros U Len Lf Lr Pl data F E1 E2 Z0.
  destruct (conservation s cvgs kf kr x U Len Lf Lr Pl) as (data' & F' & tof & E1' & E2' & E3 & B).
  assert (data' = data) by congruence. subst data'. assert (F' = F) by congruence. subst F'.
  exists tof. split; auto. rewrite (weighted_sum_zeros _ _ F Z0) in B. lra.
Qed.

Lemma tofs_indexed s cvgs kf kr : usable_setup s -> length cvgs = length (ads s) ->
  length kf = length (s_exprs s) -> length kr = length (s_exprs s) ->
  exists data rfs rrs tof,
    get_data s = Ok data /\ rates s (Ok (kf, kr)) (Some data) cvgs = Ok (rfs, rrs) /\
    tofs s (Ok (kf, kr)) (Some data) cvgs = Ok tof /\
    length tof = length (l_gas (s_lists s) ++ l_liq (s_lists s)) /\
    forall i name x, nth_error (l_gas (s_lists s) ++ l_liq (s_lists s)) i = Some name -> nth_error tof i = Some x ->
      (In name (l_gas (s_lists s)) -> tof_of s (Ok (kf, kr)) (Some data) cvgs name = Ok x) /\
      exists cs, length cs = length (s_exprs s) /\ x = Rsum cs /\
        forall j fls rf rr c, nth_error (l_rxns (s_lists s)) j = Some fls ->
          nth_error rfs j = Some rf -> nth_error rrs j = Some rr -> nth_error cs j = Some c ->
          net_change name fls (rf - rr) c.
Proof.
  intros U Len Lf Lr.
  destruct (rates_indexed s U cvgs kf kr Len Lf Lr) as (data & rfs & rrs & E1 & E2 & L1 & L2 & _).
  destruct (net_rates_ok s _ _ _ _ _ E2) as (nets & E4 & L4 & N); [congruence|].
  pose proof (tofs_ok s _ _ _ nets (proj1 U) E4 ltac:(congruence)) as ET.
  exists data, rfs, rrs. eexists. do 2 (split; [assumption|]). split; [exact ET|].
  split; [now rewrite map_length|]. intros i name x Hi Hx.
  rewrite (map_nth_error _ i _ Hi) in Hx. injection Hx as <-. split.
  - intro Hg. destruct (index_first _ _ Hg) as (k & Ek & Fk).
    destruct (tof_of_ok s _ _ _ _ name ET) as [Q _]. apply (Q k); auto.
    apply (map_nth_error (tof_value (l_rxns (s_lists s)) nets)). rewrite nth_error_app1; [apply Fk|].
    apply nth_error_Some. destruct Fk. congruence.
  - pose proof (num_rxns s U) as Nr. eexists. split; [|split; [reflexivity|]].
    + rewrite map_length, combine_length. lia.
    + intros j fls rf rr c Hf Ha Hb Hc a b Ea Eb.
      rewrite (map_nth_error _ j _ (nth_error_combine _ _ _ _ _ Hf (N j rf rr Ha Hb))) in Hc.
      injection Hc as <-. cbn [fst snd]. unfold consumption. now rewrite Ea, Eb.
Qed.

(** ** C53 *)
Section Boltzmann.
  Variable s : setup.
  Hypothesis P : prepared s.
  Variables (T : R) (ed : dict R).
  Hypothesis HT : (0 < T)%R.

  Lemma mapM_pure {A B} (f : A -> res B) (g : A -> B) l : (forall x, In x l -> f x = Ok (g x)) ->
    mapM f l = Ok (map g l).
  Proof.
    induction l as [|x l IH]; intro H; cbn [mapM map]; auto. rewrite (H x) by now left. cbn [bind].
    rewrite IH; auto. intros; apply H; now right.
  Qed.

  Lemma boltzmann_ok (include : bool) :
    let names := if include then ads s ++ sites s else ads s in
    let w n := exp (- value ed n / kT T) in
    (forall n, In n names -> exists e, dget ed n = Some e) ->
    boltzmann_coverages s T (Some ed) include = Ok (map (fun n => w n / Rsum (map w names))%R (ads s)).
  Proof.
    cbn zeta. intros H. unfold boltzmann_coverages.
    set (names := if include then ads s ++ sites s else ads s) in *.
    change (if include then l_ads (s_lists s) ++ l_site (s_lists s) else l_ads (s_lists s)) with names.
    assert (K : (kB_eV * T)%R <> 0%R) by (pose proof (kT_pos T HT) as K; unfold kT in K; lra).
    assert (W : forall n, In n names -> (do e <- dindex ed n; do x <- pydiv (- e) (kB_eV * T); Ok (exp x))
      = Ok (exp (- value ed n / kT T))).
    { intros n Hn. destruct (H n Hn) as [e E]. unfold dindex, value. rewrite E. cbn [bind].
      rewrite pydiv_ok by exact K. reflexivity. }
    rewrite (mapM_pure _ (fun n => exp (- value ed n / kT T)) names W). cbn [bind].
    apply mapM_pure. intros n Hn.
    assert (In n names) as Hn' by (unfold names; destruct include; [apply in_or_app; now left|assumption]).
    rewrite (W n Hn'). cbn [bind]. rewrite pydiv_ok; [reflexivity|].
    assert (0 < Rsum (map (fun n => exp (- value ed n / kT T)) names))%R; [|lra].
    clear -Hn'. induction names as [|m ms IH]; [destruct Hn'|]. cbn [map Rsum].
    assert (0 <= Rsum (map (fun n => exp (- value ed n / kT T)) ms))%R.
    { apply Rsum_nonneg. intros y Hy. apply in_map_iff in Hy as (z & <- & _). left. apply exp_pos. }
    pose proof (exp_pos (- value ed m / kT T)). lra.
  Qed.
End Boltzmann.

Lemma exps_pos (g : str -> R) names : names <> [] -> (0 < Rsum (map (fun n => exp (g n)) names))%R.
Proof.
  destruct names as [|m ms]; [congruence|]. intros _. cbn [map Rsum].
  assert (0 <= Rsum (map (fun n => exp (g n)) ms))%R.
  { apply Rsum_nonneg. intros y Hy. apply in_map_iff in Hy as (z & <- & _). left. apply exp_pos. }
  pose proof (exp_pos (g m)). lra.
Qed.

Lemma Rsum_app a b : Rsum (a ++ b) = (Rsum a + Rsum b)%R.
Proof. induction a as [|x a IH]; cbn; [ring|rewrite IH; ring]. Qed.

Lemma Rsum_div (f : str -> R) c l : Rsum (map (fun n => f n / c)%R l) = (Rsum (map f l) / c)%R.
Proof. unfold Rdiv. induction l as [|x l IH]; cbn; [ring|rewrite IH; ring]. Qed.

Lemma boltzmann_facts s T ed (include : bool) : prepared s -> (0 < T)%R -> ads s <> [] ->
  (forall n, In n (if include then ads s ++ sites s else ads s) -> exists e, dget ed n = Some e) ->
  exists cvgs, boltzmann_coverages s T (Some ed) include = Ok cvgs /\ length cvgs = length (ads s) /\
    (forall x, In x cvgs -> 0 < x <= 1)%R /\
    (include = false -> Rsum cvgs = 1%R) /\ (include = true -> (Rsum cvgs < 1)%R) /\
    (forall i j n m x y, nth_error (ads s) i = Some n -> nth_error (ads s) j = Some m ->
       nth_error cvgs i = Some x -> nth_error cvgs j = Some y ->
       (x / y = exp (- (value ed n - value ed m) / kT T))%R) /\
    (include = true -> forall i n x, nth_error (ads s) i = Some n -> nth_error cvgs i = Some x ->
       (x * Rsum (map (fun m => exp (- (value ed m - value ed n) / kT T)) (ads s ++ sites s)) = 1)%R).
Proof.
  intros P HT Ne H. pose proof (boltzmann_ok s T ed HT include H) as E. cbn zeta in E.
  set (names := if include then ads s ++ sites s else ads s) in *.
  set (w := fun n => exp (- value ed n / kT T)) in *. eexists. split; [exact E|].
  split; [now rewrite map_length|].
  assert (Sn : names <> []) by (unfold names; destruct include; destruct (ads s); cbn; congruence).
  assert (Z0 : (0 < Rsum (map w names))%R) by now apply exps_pos.
  assert (Pw : forall n, (0 < w n)%R) by (intro; apply exp_pos).
  assert (Snn : forall l, (0 <= Rsum (map w l))%R).
  { intro l. apply Rsum_nonneg. intros y Hy. apply in_map_iff in Hy as (z & <- & _). left. apply Pw. }
  assert (Sle : forall n l, In n l -> (w n <= Rsum (map w l))%R).
  { intros n l Hn. apply in_split in Hn as (a & b & ->). rewrite map_app, Rsum_app. cbn [map Rsum].
    pose proof (Snn a). pose proof (Snn b). lra. }
  assert (Hnames : forall n, In n (ads s) -> In n names).
  { intros n Hn. unfold names. destruct include; auto. apply in_or_app. now left. }
  split; [|split; [|split; [|split]]].
  - intros x Hx. apply in_map_iff in Hx as (n & <- & Hn). split.
    + apply Rdiv_lt_0_compat; auto.
    + apply (Rmult_le_reg_r (Rsum (map w names))); auto. unfold Rdiv. rewrite Rmult_assoc, Rinv_l by lra.
      specialize (Sle n names (Hnames n Hn)). lra.
  - intro Ei. rewrite Rsum_div.
    replace (Rsum (map w (ads s))) with (Rsum (map w names)) by (unfold names; now rewrite Ei).
    unfold Rdiv. apply Rinv_r. lra.
  - intro Ei. rewrite Rsum_div. apply (Rmult_lt_reg_r (Rsum (map w names))); auto. unfold Rdiv.
    rewrite Rmult_assoc, Rinv_l by lra. rewrite Rmult_1_r, Rmult_1_l.
    assert (En : Rsum (map w names) = (Rsum (map w (ads s)) + Rsum (map w (sites s)))%R).
    { unfold names. rewrite Ei, map_app. apply Rsum_app. }
    assert (sites s <> []) as Ns.
    { destruct (ads s) as [|n l] eqn:Ea; [congruence|]. assert (In n (ads s)) as Hn by (rewrite Ea; now left).
      destruct (ads_site s P n Hn) as [_ I]. intro Z1. rewrite Z1 in I. destruct I. }
    assert (Q : (0 < Rsum (map w (sites s)))%R) by exact (exps_pos (fun n => - value ed n / kT T)%R (sites s) Ns).
    rewrite En. lra.
  - intros i j n m x y Hi Hj Hx Hy. rewrite (map_nth_error _ i _ Hi) in Hx. rewrite (map_nth_error _ j _ Hj) in Hy.
    injection Hx as <-. injection Hy as <-.
    replace (w n / Rsum (map w names) / (w m / Rsum (map w names)))%R with (w n * / w m)%R.
    2:{ pose proof (Pw m). field. split; lra. }
    unfold w. rewrite <- exp_Ropp, <- exp_plus. f_equal. field. pose proof (kT_pos T HT). lra.
  - intros Ei i n x Hi Hx. rewrite (map_nth_error _ i _ Hi) in Hx. injection Hx as <-.
    replace (Rsum (map (fun m => exp (- (value ed m - value ed n) / kT T)) (ads s ++ sites s)))
      with (Rsum (map w names) / w n)%R.
    + pose proof (Pw n). field. split; lra.
    + rewrite <- Rsum_div. unfold names. rewrite Ei. apply Rsum_ext. intros m _. unfold w, Rdiv at 1. rewrite <- exp_Ropp, <- exp_plus.
      f_equal. field. pose proof (kT_pos T HT). lra.
Qed.

Lemma boltzmann_errors s T ed (include : bool) :
  (boltzmann_coverages s T None include = match get_data s with Ok _ => Err IOError | Err e => Err e end) /\
  (forall n, In n (if include then ads s ++ sites s else ads s) -> (forall m, In m (if include then ads s ++ sites s else ads s) -> m <> n -> exists e, dget ed m = Some e) ->
     (0 < T)%R -> dget ed n = None -> boltzmann_coverages s T (Some ed) include = Err KeyError).
Proof.
  split; [cbn [boltzmann_coverages]; now destruct (get_data s)|]. intros n Hn H HT E. unfold boltzmann_coverages.
  set (names := if include then ads s ++ sites s else ads s) in *.
  change (if include then l_ads (s_lists s) ++ l_site (s_lists s) else l_ads (s_lists s)) with names.
  assert (K : (kB_eV * T)%R <> 0%R) by (pose proof (kT_pos T HT) as K; unfold kT in K; lra).
  assert (M : mapM (fun n => do e <- dindex ed n; do x <- pydiv (- e) (kB_eV * T); Ok (exp x)) names = Err KeyError);
    [|now rewrite M].
  clear -Hn H E K. induction names as [|m ms IH]; [destruct Hn|]. cbn [mapM].
  destruct (str_eqb_spec m n) as [->|N].
  - unfold dindex at 1. rewrite E. reflexivity.
  - destruct (H m (or_introl eq_refl) N) as [e Ee]. unfold dindex at 1. rewrite Ee. cbn [bind].
    rewrite pydiv_ok by exact K. cbn [bind]. rewrite IH; auto; [destruct Hn; [congruence|auto]|].
    intros; apply H; auto. now right.
Qed.

Lemma boltzmann_feasible s T ed (include : bool) cvgs : prepared s -> (0 < T)%R -> ads s <> [] ->
  (forall n, In n (if include then ads s ++ sites s else ads s) -> exists e, dget ed n = Some e) ->
  (forall site, In site (sites s) -> (1 <= total s site)%R) ->
  boltzmann_coverages s T (Some ed) include = Ok cvgs -> feasible s cvgs.
Proof.
  intros P HT Ne H Tot E. destruct (boltzmann_facts s T ed include P HT Ne H) as (c & E' & Lc & B & S1 & S2 & _).
  assert (c = cvgs) by congruence. subst c. split; auto.
  assert (S3 : (Rsum cvgs <= 1)%R) by (destruct include; [left; auto|right; auto]). split.
  - intros i n x Hi Hx. assert (In n (ads s)) as Hn by (eapply nth_error_In; eauto).
    destruct (ads_site s P n Hn) as [_ Hs]. specialize (Tot _ Hs). specialize (B x (nth_error_In _ _ Hx)). lra.
  - intros site Hs. specialize (Tot site Hs).
    assert (covered site (ads s) cvgs <= Rsum cvgs)%R; [|lra].
    assert (Bn : forall x, In x cvgs -> (0 <= x)%R) by (intros x Hx; specialize (B x Hx); lra).
    clear -Bn Lc. generalize (ads s). revert Bn. clear Lc. induction cvgs as [|x cvgs IH]; intros Bn [|n ns]; cbn [covered Rsum]; try lra.
    + assert (0 <= x)%R by (apply Bn; now left). assert (0 <= Rsum cvgs)%R by (apply Rsum_nonneg; intros; apply Bn; now right). lra.
    + assert (0 <= x)%R by (apply Bn; now left). specialize (IH (fun y Hy => Bn y (or_intror Hy)) ns).
      destruct (str_eqb (site_tag n) site); lra.
Qed.
