(** Proofs about the model of rxn_parser.py. *)
From Coq Require Import String Ascii List ZArith NArith Bool Arith Lia Permutation.
Import ListNotations.
From Verif Require Import PyBase PyBaseFacts Regex RegexFacts Rxn_Model Rxn_Spec.

Lemma digit_species c : is_digit c = true -> is_species_char c = true.
Proof. all_ascii c. Qed.
Lemma site_species c : is_site_char c = true -> is_species_char c = true.
Proof. all_ascii c. Qed.
Lemma site_not_digit c : is_site_char c = true -> is_digit c = false.
Proof. all_ascii c. Qed.
Lemma site_not_underscore c : is_site_char c = true -> Ascii.eqb "_" c = false.
Proof. all_ascii c. Qed.
Lemma digit_not_underscore c : is_digit c = true -> Ascii.eqb "_" c = false.
Proof. all_ascii c. Qed.
Lemma digit_not_site c : is_digit c = true -> is_site_char c = false.
Proof. all_ascii c. Qed.
Lemma name_char_species c : name_char c = is_species_char c.
Proof. all_ascii c. Qed.
Lemma element_letter_site c : element_letter c = is_site_char c.
Proof. all_ascii c. Qed.

Lemma forallb_impl {A} (p q : A -> bool) l :
  (forall x, p x = true -> q x = true) -> forallb p l = true -> forallb q l = true.
Proof. intros H. rewrite !forallb_forall. auto. Qed.

(** ** Formulas *)

Definition no_lead_digit (s : str) : Prop :=
  match s with [] => True | c :: _ => is_digit c = false end.

Definition formula_caps (ds sp ms site : str) : caps :=
  (2, sp ++ "_"%char :: ms ++ site) :: (5, site) :: (4, ms) :: (3, sp) :: (1, ds) :: nil.

Lemma star_digit_first {C} (k : str -> list C) ds B :
  forallb is_digit ds = true -> no_lead_digit B ->
  exists ys, flat_map k (star_rests is_digit (ds ++ B)) = k B ++ ys.
Proof.
  intros H1 H2. apply star_first; auto.
  intros a r HB Ha Hd. destruct a as [|x a]; [congruence|].
  simpl in *. subst B. simpl in H2. rewrite H2 in Hd. discriminate.
Qed.

(** Consuming species characters cannot reach an underscore if there is none before
    the first non-species character. *)
Lemma no_reach D rest a r :
  ~ In "_"%char D -> stops is_species_char rest -> forallb is_species_char a = true ->
  D ++ rest = a ++ "_"%char :: r -> False.
Proof.
  revert a; induction D as [|d D IH]; intros a HD Hrest Ha HB; simpl in HB.
  - subst rest. destruct a as [|x a]; simpl in *; [discriminate|].
    rewrite Hrest in Ha. discriminate.
  - destruct a as [|x a]; simpl in HB; injection HB as -> HB.
    + apply HD. now left.
    + simpl in Ha. apply andb_true_iff in Ha as [_ Ha].
      apply (IH a); auto. intro H. apply HD. now right.
Qed.

Lemma rmatch_formula ds sp ms site rest :
  forallb is_digit ds = true -> forallb is_species_char sp = true -> no_lead_digit sp ->
  forallb is_digit ms = true -> site <> [] -> forallb is_site_char site = true ->
  stops is_species_char rest ->
  exists l, rmatch formula_regex [] (ds ++ sp ++ "_"%char :: ms ++ site ++ rest)
            = (formula_caps ds sp ms site, rest) :: l.
Proof.
  intros Hds Hsp Hlead Hms Hsn Hsite Hrest.
  set (s := ds ++ sp ++ "_"%char :: ms ++ site ++ rest).
  unfold formula_regex. rewrite rmatch_group_star.
  match goal with |- context [flat_map ?k _] => set (k1 := k) end.
  destruct (star_digit_first k1 ds (sp ++ "_"%char :: ms ++ site ++ rest)) as [ys E]; auto.
  { destruct sp as [|x sp']; simpl in *; auto. }
  unfold s at 1. rewrite E. clear E.
  assert (Hk1 : exists l, k1 (sp ++ "_"%char :: ms ++ site ++ rest)
      = (formula_caps ds sp ms site, rest) :: l).
  2:{ destruct Hk1 as [l Hl]. rewrite Hl. simpl. eauto. }
  unfold k1, s. rewrite consumed_app.
  match goal with |- context [rmatch (RGroup 2 ?X) ?c ?t] => 
    assert (HX : exists l, rmatch X c t = ((5, site) :: (4, ms) :: (3, sp) :: c, rest) :: l) end.
  2:{ destruct HX as [l Hl]. cbn [rmatch] in Hl |- *. rewrite Hl. cbn [map].
      eexists. unfold formula_caps. f_equal. f_equal.
      simpl. f_equal. f_equal.
      replace (sp ++ "_"%char :: ms ++ site ++ rest)
        with ((sp ++ "_"%char :: ms ++ site) ++ rest)
        by (rewrite <- app_assoc; simpl; now rewrite <- app_assoc).
      apply consumed_app. }
  rewrite rmatch_group_star.
  match goal with |- context [flat_map ?k _] => set (k2 := k) end.
  destruct (star_first is_species_char k2 sp ("_"%char :: ms ++ site ++ rest)) as [ys2 E2]; auto.
  { intros a r HB Ha Hp. destruct a as [|x a]; [congruence|]. simpl in HB.
    injection HB as <- HB.
    unfold k2. cbn [rmatch]. destruct r as [|y r]; [reflexivity|].
    destruct (Ascii.eqb "_" y) eqn:Ey; [|reflexivity]. exfalso.
    apply Ascii.eqb_eq in Ey. subst y. rewrite app_assoc in HB.
    change (forallb is_species_char a = true) in Hp.
    refine (no_reach (ms ++ site) rest a r _ Hrest Hp HB).
    intro Hin. apply in_app_or in Hin as [Hin|Hin].
    + rewrite forallb_forall in Hms. apply Hms in Hin. discriminate.
    + rewrite forallb_forall in Hsite. apply Hsite in Hin. discriminate. }
  rewrite E2. clear E2.
  assert (Hk2 : exists l, k2 ("_"%char :: ms ++ site ++ rest)
     = ((5, site) :: (4, ms) :: (3, sp) :: (1, ds) :: nil, rest) :: l).
  2:{ destruct Hk2 as [l ->]. simpl. eauto. }
  unfold k2. rewrite consumed_app.
  change (rmatch (RSeq (RChr (Ascii.eqb "_")) ?r) ?c ("_"%char :: ?t))
    with (rmatch r c t ++ []).
  rewrite app_nil_r. cbn [fst snd].
  rewrite rmatch_group_star.
  match goal with |- context [flat_map ?k _] => set (k3 := k) end.
  destruct (star_digit_first k3 ms (site ++ rest)) as [ys3 E3]; auto.
  { destruct site as [|x site']; simpl in *; [congruence|].
    apply andb_true_iff in Hsite as [Hx _]. now apply site_not_digit. }
  rewrite E3. unfold k3. rewrite consumed_app. clear k3 E3.
  cbn [rmatch].
  destruct site as [|x site']; [congruence|]. cbn [app plus_rests].
  simpl in Hsite. apply andb_true_iff in Hsite as [Hx Hsite']. rewrite Hx.
  destruct (star_rests_stop is_site_char site' rest) as [l ->]; auto.
  { destruct rest as [|z r]; simpl in *; auto.
    destruct (is_site_char z) eqn:Ez; auto. apply site_species in Ez. congruence. }
  cbn [map fst snd]. simpl. eexists. f_equal. f_equal. f_equal. f_equal.
  apply (consumed_app (x :: site') rest).
Qed.

Lemma parse_formula_gen ds sp ms site rest :
  forallb is_digit ds = true -> forallb is_species_char sp = true -> no_lead_digit sp ->
  forallb is_digit ms = true -> site <> [] -> forallb is_site_char site = true ->
  stops is_species_char rest ->
  parse_formula (ds ++ sp ++ "_"%char :: ms ++ site ++ rest)
  = Ok {| f_text := ds ++ sp ++ "_"%char :: ms ++ site ++ rest;
          f_stoich := int_or_1 ds;
          f_species_site := sp ++ "_"%char :: ms ++ site;
          f_species := sp;
          f_nsite := int_or_1 ms;
          f_site := site |}.
Proof.
  intros. destruct (rmatch_formula ds sp ms site rest) as [l E]; auto.
  unfold parse_formula. rewrite (search_first _ _ _ _ _ E). reflexivity.
Qed.

Lemma number_text_digits o : forallb is_digit (number_text o) = true.
Proof. destruct o; simpl; auto. apply dec_digits. Qed.

Lemma number_text_value o : int_or_1 (number_text o) = number_value o.
Proof.
  destruct o as [n|]; simpl; auto. unfold int_or_1.
  destruct (dec n) eqn:E; [now apply dec_nonnil in E|]. rewrite <- E. apply int_of_dec.
Qed.

Theorem formula_roundtrip n sp m site :
  species_name sp -> site_name site ->
  parse_formula (write_formula n sp m site)
  = Ok {| f_text := write_formula n sp m site;
          f_stoich := number_value n;
          f_species_site := write_species_site sp m site;
          f_species := sp;
          f_nsite := number_value m;
          f_site := site |}.
Proof.
  intros [Hsp Hlead] [Hsn Hsite].
  unfold write_formula, write_species_site.
  change (L "_") with ["_"%char]. cbn [app].
  rewrite <- (app_nil_r site) at 1.
  rewrite parse_formula_gen; auto using number_text_digits.
  - rewrite app_nil_r, !number_text_value. reflexivity.
  - eapply forallb_impl; [|exact Hsp]. intros c Hc. now rewrite <- name_char_species.
  - exact I.
Qed.

(** Every match has the expected shape. *)
Lemma rmatch_formula_inv s c t :
  In (c, t) (rmatch formula_regex [] s) ->
  exists ds sp ms site,
    s = ds ++ sp ++ "_"%char :: ms ++ site ++ t /\ c = formula_caps ds sp ms site /\
    forallb is_digit ds = true /\ forallb is_species_char sp = true /\
    forallb is_digit ms = true /\ site <> [] /\ forallb is_site_char site = true.
Proof.
  unfold formula_regex. rewrite rmatch_group_star. intro H.
  apply in_flat_map in H as (r1 & H1 & H).
  apply star_rests_In in H1 as (ds & -> & Hds). rewrite consumed_app in H.
  cbn [rmatch] in H. apply in_map_iff in H as ([c2 t2] & E & H).
  cbn [fst snd] in E. injection E as <- <-.
  match type of H with In _ (flat_map ?f (map ?g (map ?h ?l))) => 
    change (In (c2, t2) (rmatch (RSeq (RGroup 3 (RStar is_species_char))
                 (RSeq (RChr (Ascii.eqb "_"))
                 (RSeq (RGroup 4 (RStar is_digit))
                       (RGroup 5 (RPlus is_site_char))))) [(1, ds)] r1)) in H end.
  rewrite rmatch_group_star in H.
  apply in_flat_map in H as (r3 & H3 & H).
  apply star_rests_In in H3 as (sp & -> & Hsp). rewrite consumed_app in H.
  destruct r3 as [|u r3]; [destruct H|].
  cbn [rmatch] in H. destruct (Ascii.eqb "_" u) eqn:Eu; [|destruct H].
  apply Ascii.eqb_eq in Eu. subst u.
  change (In (c2, t2) (rmatch (RSeq (RGroup 4 (RStar is_digit)) (RGroup 5 (RPlus is_site_char)))
            [(3, sp); (1, ds)] r3 ++ [])) in H.
  rewrite app_nil_r, rmatch_group_star in H.
  apply in_flat_map in H as (r4 & H4 & H).
  apply star_rests_In in H4 as (ms & -> & Hms). rewrite consumed_app in H.
  cbn [rmatch] in H. apply in_map_iff in H as ([c5 t5] & E & H).
  cbn [fst snd] in E. injection E as <- <-.
  apply in_map_iff in H as (r5 & E & H). injection E as <- <-.
  destruct r4 as [|x r4]; [destruct H|]. cbn [plus_rests] in H.
  destruct (is_site_char x) eqn:Ex; [|destruct H].
  apply star_rests_In in H as (site & -> & Hsite).
  exists ds, sp, ms, (x :: site). repeat split; auto.
  - unfold formula_caps. f_equal.
    + f_equal. rewrite <- (consumed_app (sp ++ "_"%char :: ms ++ x :: site) r5).
      f_equal. rewrite <- app_assoc. simpl. rewrite <- app_assoc. reflexivity.
    + f_equal. f_equal. apply (consumed_app (x :: site) r5).
  - discriminate.
  - simpl. now rewrite Ex.
Qed.

Lemma parse_formula_inv s f :
  parse_formula s = Ok f ->
  exists before ds ms after,
    s = before ++ ds ++ f_species f ++ "_"%char :: ms ++ f_site f ++ after /\
    f_text f = s /\
    f_species_site f = f_species f ++ "_"%char :: ms ++ f_site f /\
    f_stoich f = int_or_1 ds /\ f_nsite f = int_or_1 ms /\
    forallb is_digit ds = true /\ forallb is_species_char (f_species f) = true /\
    forallb is_digit ms = true /\ f_site f <> [] /\ forallb is_site_char (f_site f) = true.
Proof.
  unfold parse_formula. destruct (search formula_regex s) as [m|] eqn:E; [|discriminate].
  intro H; injection H as <-.
  apply search_from_Some in E as (a & t & l & Hs & _ & Hm & _).
  assert (Hin : In (m_caps m, m_rest m) (rmatch formula_regex [] t)) by (rewrite Hm; now left).
  apply rmatch_formula_inv in Hin as (ds & sp & ms & site & Ht & Hc & H1 & H2 & H3 & H4 & H5).
  exists a, ds, ms, (m_rest m). unfold group_text, group. rewrite Hc. cbn.
  subst s. rewrite Ht at 1. repeat split; auto.
Qed.

Theorem formula_accept s :
  (exists f, parse_formula s = Ok f) <-> has_site_marker s.
Proof.
  split.
  - intros [f H]. apply parse_formula_inv in H
      as (b & ds & ms & after & Hs & _ & _ & _ & _ & _ & _ & Hms & Hn & Hsite).
    destruct (f_site f) as [|x site]; [congruence|].
    exists (b ++ ds ++ f_species f), ms, x, (site ++ after). repeat split; auto.
    + rewrite Hs. change (L "_") with ["_"%char]. simpl. now rewrite !app_assoc.
    + simpl in Hsite. apply andb_true_iff in Hsite as [H _]. exact H.
  - intros (b & ds & c & after & Hs & Hd & Hc).
    destruct (parse_formula s) as [f|e] eqn:E; eauto. exfalso.
    unfold parse_formula in E. destruct (search formula_regex s) eqn:Es; [discriminate|].
    assert (Hc' : is_site_char c = true) by exact Hc.
    eapply (proj1 (search_None _ _) Es b (L "_" ++ ds ++ c :: after) after Hs).
    unfold formula_regex. eapply den_seq.
    { constructor. apply (den_star is_digit []). reflexivity. }
    constructor. eapply den_seq.
    { constructor. apply (den_star is_species_char []). reflexivity. }
    eapply den_seq; [apply den_chr; reflexivity|].
    eapply den_seq; [constructor; apply (den_star is_digit ds); exact Hd|].
    constructor. apply (den_plus is_site_char c [] after). simpl. now rewrite Hc'.
Qed.

Lemma formula_error s e : parse_formula s = Err e -> e = ChemFormulaError.
Proof. unfold parse_formula. destruct (search formula_regex s); congruence. Qed.

(** The species_site text determines the species, the site number and the site. *)
Lemma last_underscore_unique sp1 sp2 t1 t2 :
  ~ In "_"%char t1 -> ~ In "_"%char t2 ->
  sp1 ++ "_"%char :: t1 = sp2 ++ "_"%char :: t2 -> sp1 = sp2 /\ t1 = t2.
Proof.
  revert sp2; induction sp1 as [|x sp1 IH]; intros sp2 H1 H2 H.
  - destruct sp2 as [|y sp2]; simpl in H.
    + injection H as ->. auto.
    + injection H as <- ->. exfalso. apply H1. apply in_or_app. right. now left.
  - destruct sp2 as [|y sp2]; simpl in H.
    + injection H as -> <-. exfalso. apply H2. apply in_or_app. right. now left.
    + injection H as -> H. apply IH in H as [-> ->]; auto.
Qed.

Lemma digits_site_unique m1 m2 s1 s2 :
  forallb is_digit m1 = true -> forallb is_digit m2 = true ->
  forallb is_site_char s1 = true -> forallb is_site_char s2 = true ->
  s1 <> [] -> s2 <> [] ->
  m1 ++ s1 = m2 ++ s2 -> m1 = m2 /\ s1 = s2.
Proof.
  revert m2; induction m1 as [|x m1 IH]; intros m2 H1 H2 H3 H4 N1 N2 H.
  - destruct m2 as [|y m2]; simpl in H; auto.
    subst s1. simpl in *. apply andb_true_iff in H2 as [H2 _], H3 as [H3 _].
    apply site_not_digit in H3. congruence.
  - simpl in H1. apply andb_true_iff in H1 as [Hx H1].
    destruct m2 as [|y m2]; simpl in H.
    + subst s2. simpl in H4. apply andb_true_iff in H4 as [H4 _].
      apply site_not_digit in H4. congruence.
    + injection H as -> H. simpl in H2. apply andb_true_iff in H2 as [_ H2].
      apply IH in H as [-> ->]; auto.
Qed.

Lemma no_underscore_digits_site ms site :
  forallb is_digit ms = true -> forallb is_site_char site = true -> ~ In "_"%char (ms ++ site).
Proof.
  intros H1 H2 Hin. rewrite forallb_forall in H1, H2.
  apply in_app_or in Hin as [Hin|Hin]; [apply H1 in Hin|apply H2 in Hin]; discriminate.
Qed.

Lemma species_site_parts s1 s2 f1 f2 :
  parse_formula s1 = Ok f1 -> parse_formula s2 = Ok f2 ->
  f_species_site f1 = f_species_site f2 ->
  f_species f1 = f_species f2 /\ f_nsite f1 = f_nsite f2 /\ f_site f1 = f_site f2.
Proof.
  intros H1 H2 E.
  apply parse_formula_inv in H1
    as (b1 & ds1 & ms1 & a1 & _ & _ & E1 & _ & N1 & _ & _ & M1 & Z1 & S1).
  apply parse_formula_inv in H2
    as (b2 & ds2 & ms2 & a2 & _ & _ & E2 & _ & N2 & _ & _ & M2 & Z2 & S2).
  rewrite E1, E2 in E.
  apply last_underscore_unique in E as [-> E]; auto using no_underscore_digits_site.
  apply digits_site_unique in E as [-> ->]; auto. repeat split; congruence.
Qed.

(** ** Reactions *)

Lemma not_angle_iff s : forallb not_angle s = true <-> no_angle s.
Proof.
  unfold no_angle. rewrite forallb_forall. split.
  - intro H. split; intro Hin; apply H in Hin; discriminate.
  - intros [H1 H2] c Hc. unfold not_angle.
    destruct (Ascii.eqb_spec c "<"); [subst; tauto|].
    destruct (Ascii.eqb_spec c ">"); [subst; tauto|]. reflexivity.
Qed.

Lemma rmatch_arrow c ar t : rmatch arrow_regex c (arrow_text ar ++ t) = [(c, t)].
Proof. destruct ar; reflexivity. Qed.

Lemma rmatch_seq_chr p r c x s :
  rmatch (RSeq (RChr p) r) c (x :: s) = if p x then rmatch r c s else [].
Proof. cbn [rmatch]. destruct (p x); cbn [flat_map fst snd]; auto using app_nil_r. Qed.

Lemma rmatch_seq_opt_chr p r c x s :
  rmatch (RSeq (ROpt (RChr p)) r) c (x :: s)
  = (if p x then rmatch r c s else []) ++ rmatch r c (x :: s).
Proof.
  cbn [rmatch ROpt]. destruct (p x); cbn [flat_map fst snd app]; now rewrite !app_nil_r.
Qed.

Lemma rmatch_dash_gt c s c' t :
  In (c', t) (rmatch (RSeq (RChr (Ascii.eqb "-")) (RChr (Ascii.eqb ">"))) c s) ->
  c' = c /\ s = L "->" ++ t.
Proof.
  destruct s as [|x s]; [intros []|]. rewrite rmatch_seq_chr.
  destruct (Ascii.eqb_spec "-" x) as [<-|Hx]; [|intros []].
  cbn [rmatch]. destruct s as [|y s]; [intros []|].
  destruct (Ascii.eqb_spec ">" y) as [<-|Hy]; [|intros []].
  intros [H|[]]. injection H as <- <-. auto.
Qed.

Lemma rmatch_arrow_inv c s c' t :
  In (c', t) (rmatch arrow_regex c s) -> c' = c /\ exists ar, s = arrow_text ar ++ t.
Proof.
  unfold arrow_regex. destruct s as [|x s]; [intros []|].
  rewrite rmatch_seq_opt_chr, in_app_iff. intros [H|H].
  - destruct (Ascii.eqb_spec "<" x) as [<-|Hx]; [|destruct H].
    apply rmatch_dash_gt in H as [-> ->]. split; auto. now exists Double.
  - apply rmatch_dash_gt in H as [-> ->]. split; auto. now exists Single.
Qed.

Lemma rmatch_arrow_nil c s : (forall ar t, s <> arrow_text ar ++ t) -> rmatch arrow_regex c s = [].
Proof.
  intro H. destruct (rmatch arrow_regex c s) as [|[c' t] l] eqn:E; auto.
  exfalso. assert (Hin : In (c', t) (rmatch arrow_regex c s)) by (rewrite E; now left).
  apply rmatch_arrow_inv in Hin as [_ [ar Har]]. eapply H; eauto.
Qed.

(** Cutting at an arrow: the text before it is a unique choice. *)
Lemma state_then_arrow {C} (k : str -> list C) a ar t :
  no_angle a ->
  (forall r, (forall ar' t', r <> arrow_text ar' ++ t') -> k r = []) ->
  exists ys, flat_map k (star_rests not_angle (a ++ arrow_text ar ++ t))
             = k (arrow_text ar ++ t) ++ ys.
Proof.
  intros Ha Hk. apply star_first; [now apply not_angle_iff|].
  intros b r HB Hb Hn. apply Hk. intros ar' t' Er. subst r.
  destruct ar.
  - (* -> *)
    destruct b as [|x b]; [congruence|]. cbn in HB. injection HB as <- HB.
    destruct b as [|y b]; cbn in HB.
    + destruct ar'; cbn in HB; discriminate.
    + injection HB as <- HB. cbn in Hn. discriminate.
  - destruct b as [|x b]; [congruence|]. cbn in HB. injection HB as <- HB.
    cbn in Hn. discriminate.
Qed.

Lemma rmatch_group3 n p c t rest :
  forallb p t = true -> stops p rest ->
  exists l, rmatch (RGroup n (RStar p)) c (t ++ rest) = ((n, t) :: c, rest) :: l.
Proof.
  intros H1 H2. cbn [rmatch]. destruct (star_rests_stop p t rest H1 H2) as [l ->].
  cbn [map fst snd]. rewrite consumed_app. eauto.
Qed.

Lemma rmatch_seq_arrow r c ar t :
  rmatch (RSeq arrow_regex r) c (arrow_text ar ++ t) = rmatch r c t.
Proof.
  change (rmatch (RSeq arrow_regex r) c (arrow_text ar ++ t))
    with (flat_map (fun m => rmatch r (fst m) (snd m)) (rmatch arrow_regex c (arrow_text ar ++ t))).
  rewrite rmatch_arrow. cbn. apply app_nil_r.
Qed.

Lemma rmatch_seq_arrow_nil r c s :
  (forall ar t, s <> arrow_text ar ++ t) -> rmatch (RSeq arrow_regex r) c s = [].
Proof.
  intro H.
  change (rmatch (RSeq arrow_regex r) c s)
    with (flat_map (fun m => rmatch r (fst m) (snd m)) (rmatch arrow_regex c s)).
  rewrite rmatch_arrow_nil; auto.
Qed.

Definition tail_regex : re :=
  RSeq (ROpt (RSeq (RGroup 2 (RStar not_angle)) arrow_regex)) (RGroup 3 (RStar not_angle)).

Lemma states_regex_first a ar t :
  no_angle a ->
  exists ys, rmatch states_regex [] (a ++ arrow_text ar ++ t)
             = rmatch tail_regex [(1, a)] t ++ ys.
Proof.
  intro Ha. unfold states_regex. rewrite rmatch_group_star.
  match goal with |- context [flat_map ?k _] => set (k1 := k) end.
  destruct (state_then_arrow k1 a ar t) as [ys ->]; auto.
  { intros r Hr. unfold k1. now apply rmatch_seq_arrow_nil. }
  exists ys. unfold k1. rewrite consumed_app, rmatch_seq_arrow. reflexivity.
Qed.

Lemma rmatch_states2 a ar b :
  no_angle a -> no_angle b ->
  exists l, rmatch states_regex [] (a ++ arrow_text ar ++ b) = ([(3, b); (1, a)], []) :: l.
Proof.
  intros Ha Hb. destruct (states_regex_first a ar b Ha) as [ys ->].
  assert (Hopt : rmatch (RSeq (RGroup 2 (RStar not_angle)) arrow_regex) [(1, a)] b = []).
  { rewrite rmatch_group_star. apply flat_map_nil. intros r Hr.
    apply star_rests_In in Hr as (p & -> & _).
    apply rmatch_arrow_nil. intros ar' t' ->.
    destruct Hb as [_ Hb]. apply Hb. apply in_or_app. right.
    destruct ar'; cbn; auto. }
  unfold tail_regex.
  change (rmatch (RSeq (ROpt ?x) ?y) ?c ?t)
    with (flat_map (fun m => rmatch y (fst m) (snd m)) (rmatch x c t ++ [(c, t)])).
  rewrite Hopt. cbn [app flat_map fst snd]. rewrite app_nil_r.
  destruct (rmatch_group3 3 not_angle [(1, a)] b []) as [l E]; [now apply not_angle_iff|exact I|].
  rewrite app_nil_r in E. rewrite E. cbn. eauto.
Qed.

Lemma rmatch_states3 a ar b ar2 c :
  no_angle a -> no_angle b -> no_angle c ->
  exists l, rmatch states_regex [] (a ++ arrow_text ar ++ b ++ arrow_text ar2 ++ c)
            = ([(3, c); (2, b); (1, a)], []) :: l.
Proof.
  intros Ha Hb Hc.
  destruct (states_regex_first a ar (b ++ arrow_text ar2 ++ c) Ha) as [ys ->].
  assert (Hopt : exists l, rmatch (RSeq (RGroup 2 (RStar not_angle)) arrow_regex) [(1, a)]
                   (b ++ arrow_text ar2 ++ c) = ([(2, b); (1, a)], c) :: l).
  { rewrite rmatch_group_star.
    match goal with |- context [flat_map ?k _] => set (k1 := k) end.
    destruct (state_then_arrow k1 b ar2 c) as [ys' ->]; auto.
    { intros r Hr. unfold k1. now apply rmatch_arrow_nil. }
    unfold k1. rewrite consumed_app, rmatch_arrow. cbn. eauto. }
  destruct Hopt as [l1 Hopt]. unfold tail_regex.
  change (rmatch (RSeq (ROpt ?x) ?y) ?c ?t)
    with (flat_map (fun m => rmatch y (fst m) (snd m)) (rmatch x c t ++ [(c, t)])).
  rewrite Hopt. cbn [app flat_map fst snd].
  destruct (rmatch_group3 3 not_angle [(2, b); (1, a)] c []) as [l E];
    [now apply not_angle_iff|exact I|].
  rewrite app_nil_r in E. rewrite E. cbn. eauto.
Qed.

Definition nonempty_states (l : list str) : list str :=
  map strip (filter (fun s => negb (str_eqb s [])) l).

Lemma nonempty_states_all l : Forall (fun s => s <> []) l -> nonempty_states l = map strip l.
Proof.
  unfold nonempty_states. induction 1 as [|x l Hx Hl IH]; auto.
  cbn [filter]. apply str_eqb_neq in Hx. rewrite Hx. cbn [negb map]. now rewrite IH.
Qed.

Lemma state_of_group_Some s : state_of_group (Some s) = nonempty_states [s].
Proof. destruct s; reflexivity. Qed.

Lemma tolist2 a ar b :
  no_angle a -> no_angle b ->
  rxn_tolist (a ++ arrow_text ar ++ b) = Ok (nonempty_states [a; b]).
Proof.
  intros Ha Hb. destruct (rmatch_states2 a ar b Ha Hb) as [l E].
  unfold rxn_tolist. rewrite (search_first _ _ _ _ _ E).
  unfold group. cbn [m_caps cap Nat.eqb]. rewrite !state_of_group_Some.
  unfold nonempty_states. cbn [state_of_group app filter].
  destruct a, b; reflexivity.
Qed.

Lemma tolist3 a ar b ar2 c :
  no_angle a -> no_angle b -> no_angle c ->
  rxn_tolist (a ++ arrow_text ar ++ b ++ arrow_text ar2 ++ c)
  = Ok (nonempty_states [a; b; c]).
Proof.
  intros Ha Hb Hc. destruct (rmatch_states3 a ar b ar2 c Ha Hb Hc) as [l E].
  unfold rxn_tolist. rewrite (search_first _ _ _ _ _ E).
  unfold group. cbn [m_caps cap Nat.eqb]. rewrite !state_of_group_Some.
  unfold nonempty_states. destruct a, b, c; reflexivity.
Qed.

(** Captures of any match of the arrow pattern. *)
Lemma rmatch_states_inv s c t :
  In (c, t) (rmatch states_regex [] s) ->
  exists a b2 d, no_angle a /\ no_angle d /\
    (c = [(3, d); (1, a)] /\ (exists ar, s = a ++ arrow_text ar ++ d ++ t) \/
     no_angle b2 /\ c = [(3, d); (2, b2); (1, a)] /\
     (exists ar ar2, s = a ++ arrow_text ar ++ b2 ++ arrow_text ar2 ++ d ++ t)).
Proof.
  unfold states_regex. rewrite rmatch_group_star. intro H.
  apply in_flat_map in H as (r1 & H1 & H).
  apply star_rests_In in H1 as (a & -> & Ha). rewrite consumed_app in H.
  apply not_angle_iff in Ha.
  change (In (c, t) (flat_map (fun m => rmatch tail_regex (fst m) (snd m))
             (rmatch arrow_regex [(1, a)] r1))) in H.
  apply in_flat_map in H as ([c1 r2] & H1 & H).
  apply rmatch_arrow_inv in H1 as [-> [ar ->]]. cbn [fst snd] in H.
  unfold tail_regex in H.
  change (In (c, t) (flat_map (fun m => rmatch (RGroup 3 (RStar not_angle)) (fst m) (snd m))
     (rmatch (RSeq (RGroup 2 (RStar not_angle)) arrow_regex) [(1, a)] r2 ++ [([(1, a)], r2)]))) in H.
  apply in_flat_map in H as ([c3 r3] & H3 & H). cbn [fst snd rmatch] in H.
  apply in_map_iff in H as ([c4 r4] & E & H). cbn [fst snd] in E. injection E as <- <-.
  apply in_map_iff in H as (r5 & E & H). injection E as <- <-.
  apply star_rests_In in H as (d & -> & Hd). apply not_angle_iff in Hd.
  rewrite consumed_app.
  apply in_app_iff in H3 as [H3|[H3|[]]].
  - rewrite rmatch_group_star in H3. apply in_flat_map in H3 as (r6 & H6 & H3).
    apply star_rests_In in H6 as (b & -> & Hb). apply not_angle_iff in Hb.
    rewrite consumed_app in H3.
    apply rmatch_arrow_inv in H3 as [-> [ar2 ->]].
    exists a, b, d. repeat split; try tauto; try (apply Ha || apply Hd). right. split; auto. split; auto. eauto.
  - injection H3 as <- ->. exists a, [], d.
    repeat split; try (apply Ha || apply Hd). left. eauto.
Qed.

Lemma tolist_inv e sts :
  rxn_tolist e = Ok sts ->
  exists a ob d, no_angle a /\ no_angle d /\ (forall b, ob = Some b -> no_angle b) /\
    sts = state_of_group (Some a) ++ state_of_group ob ++ state_of_group (Some d).
Proof.
  unfold rxn_tolist. destruct (search states_regex e) as [m|] eqn:E; [|discriminate].
  intro H; injection H as <-.
  apply search_from_Some in E as (p & t & l & _ & _ & Hm & _).
  assert (Hin : In (m_caps m, m_rest m) (rmatch states_regex [] t)) by (rewrite Hm; now left).
  apply rmatch_states_inv in Hin as (a & b & d & Ha & Hd & [[Hc _]|(Hb & Hc & _)]).
  - exists a, None, d. unfold group. rewrite Hc. cbn [cap Nat.eqb].
    repeat split; try (apply Ha || apply Hd); congruence.
  - exists a, (Some b), d. unfold group. rewrite Hc. cbn [cap Nat.eqb].
    repeat split; try (apply Ha || apply Hd); injection H as <-; apply Hb.
Qed.

Lemma no_angle_strip s : no_angle s -> no_angle (strip s).
Proof. intros [H1 H2]. split; intro H; apply strip_incl in H; auto. Qed.

Lemma tolist_states e sts :
  rxn_tolist e = Ok sts ->
  Forall (fun s => no_angle s /\ strip s = s) sts /\ length sts <= 3.
Proof.
  intro H. apply tolist_inv in H as (a & ob & d & Ha & Hd & Hb & ->).
  assert (G : forall o, (forall b, o = Some b -> no_angle b) ->
     Forall (fun s => no_angle s /\ strip s = s) (state_of_group o) /\
     length (state_of_group o) <= 1).
  { intros o Ho. destruct o as [[|x t]|]; simpl; split; auto.
    constructor; auto. split; [|apply strip_idem]. apply no_angle_strip. auto. }
  destruct (G (Some a)) as [G1 L1]; [congruence|].
  destruct (G ob) as [G2 L2]; auto.
  destruct (G (Some d)) as [G3 L3]; [congruence|].
  split; [apply Forall_app; split; auto; apply Forall_app; auto|].
  rewrite !app_length. lia.
Qed.

Lemma no_angle_app a b : no_angle a -> no_angle b -> no_angle (a ++ b).
Proof.
  intros [A1 A2] [B1 B2]. split; intro H; apply in_app_or in H as [H|H]; auto.
Qed.

Lemma no_angle_blank : no_angle (L " ").
Proof. split; intros [H|[]]; discriminate. Qed.

Lemma strip_pad_r s : strip s = s -> strip (s ++ L " ") = s.
Proof.
  intro H. rewrite <- H at 2. rewrite <- (app_nil_l (s ++ L " ")).
  rewrite H. apply strip_padded; auto. rewrite <- H. apply strip_stripped.
Qed.

Lemma strip_pad_l s : strip s = s -> strip (L " " ++ s) = s.
Proof.
  intro H. rewrite <- (app_nil_r s) at 1. apply strip_padded; auto.
  rewrite <- H. apply strip_stripped.
Qed.

Lemma strip_pad_lr s : strip s = s -> strip (L " " ++ s ++ L " ") = s.
Proof.
  intro H. apply strip_padded; auto. rewrite <- H. apply strip_stripped.
Qed.

Lemma revert_states e sts :
  rxn_tolist e = Ok sts -> length sts = 2 \/ length sts = 3 ->
  exists e', rxn_revert e = Ok e' /\ rxn_tolist e' = Ok (rev sts).
Proof.
  intros H Hl. pose proof (tolist_states e sts H) as [Hs _].
  unfold rxn_revert. rewrite H. cbn [bind].
  destruct sts as [|s1 [|s2 [|s3 [|s4 sts]]]]; cbn in Hl; try lia.
  - inversion Hs as [|? ? [A1 E1] Hs2]; subst. inversion Hs2 as [|? ? [A2 E2] _]; subst.
    cbn [rev app]. eexists; split; [reflexivity|].
    replace (s2 ++ L " -> " ++ s1) with ((s2 ++ L " ") ++ arrow_text Single ++ (L " " ++ s1))
      by (rewrite <- app_assoc; reflexivity).
    rewrite tolist2 by auto using no_angle_app, no_angle_blank.
    rewrite nonempty_states_all by (repeat constructor; destruct s2; discriminate).
    cbn [map]. now rewrite strip_pad_r, strip_pad_l.
  - inversion Hs as [|? ? [A1 E1] Hs2]; subst. inversion Hs2 as [|? ? [A2 E2] Hs3]; subst.
    inversion Hs3 as [|? ? [A3 E3] _]; subst.
    cbn [rev app]. eexists; split; [reflexivity|].
    replace (s3 ++ L " <-> " ++ s2 ++ L " -> " ++ s1)
      with ((s3 ++ L " ") ++ arrow_text Double ++ (L " " ++ s2 ++ L " ")
            ++ arrow_text Single ++ (L " " ++ s1))
      by (rewrite <- !app_assoc; reflexivity).
    rewrite tolist3 by auto 6 using no_angle_app, no_angle_blank.
    rewrite nonempty_states_all by (repeat constructor; destruct s3; discriminate).
    cbn [map]. now rewrite (strip_pad_r s3 E3), (strip_pad_lr s2 E2), (strip_pad_l s1 E1).
Qed.
