(** The text of the derivative of one product. *)
From Coq Require Import String Ascii List ZArith NArith Bool Arith Lia.
Import ListNotations.
From Verif Require Import PyBase PyBaseFacts Regex RegexFacts Rxn_Model Rxn_Proofs MF_Model SS_Model SS_Text.
Local Open Scope list_scope.
Local Open Scope nat_scope.

(** [term_derivation] on a product in which the name occurs last at the given place. *)
Section Product.
  Variables (b : str) (f1 : list fac) (name pow : str) (n : Z) (f2 : list fac).
  Hypothesis B : base_ok b.
  Hypothesis F1 : Forall fac_ok f1.
  Hypothesis F2 : Forall fac_ok f2.
  Hypothesis Nm : forallb is_species_char name = true.
  Hypothesis Pw : small_pow pow n.
  Hypothesis Last : forall f, In f f2 -> c_tab f = L "theta" -> c_name f <> name.
  Hypothesis Np : name_pattern name = Ok (rlit name).
  Hypothesis Lb : 2 <= length b.

  Let m := {| m_before := []; m_caps := term_caps b f1 name pow f2; m_rest := [] |}.

  Lemma coefficient_product : term_coefficient m = b ++ flat (f1 ++ f2).
  Proof.
    unfold term_coefficient, truthy, group_text, group, m. cbn [m_caps]. unfold term_caps, pre.
    assert (C2 : forall c, cap 2 (rest_caps 6 (flat f2) (pow_caps 4 pow c)) = cap 2 c).
    { intro c. destruct Pw as [[-> _]|(d & D & -> & _)]; destruct (flat f2); reflexivity. }
    rewrite C2. cbn [cap Nat.eqb].
    assert (E2 : match b ++ flat f1 with [] => false | _ :: _ => true end = true)
      by (destruct b; [cbn in Lb; lia|reflexivity]).
    rewrite flat_app, (app_assoc b (flat f1) (flat f2)).
    destruct F2 as [|f fs (T & _) F].
    - cbn [flat map concat rest_caps]. rewrite app_nil_r.
      destruct Pw as [[-> _]|(d & D & -> & _)]; cbn [pow_caps L list_ascii_of_string app cap Nat.eqb andb];
        (destruct (b ++ flat f1); [discriminate|reflexivity]).
    - rewrite flat_cons. unfold ftext. cbn [L list_ascii_of_string app rest_caps cap Nat.eqb].
      destruct T as [E|[E|E]]; rewrite E; cbn [L list_ascii_of_string app andb];
        (destruct (b ++ flat f1); [discriminate|reflexivity]).
  Qed.

  Lemma power_product : term_power m = n.
  Proof.
    unfold term_power, truthy, group_text, group, m. cbn [m_caps]. unfold term_caps.
    destruct Pw as [[-> ->]|(d & D & -> & ->)]; destruct (flat f2); reflexivity.
  Qed.

  Lemma group3_product : group_text m 3 = theta_text name.
  Proof.
    unfold group_text, group, m. cbn [m_caps]. unfold term_caps.
    destruct Pw as [[-> ->]|(d & D & -> & ->)]; destruct (flat f2); reflexivity.
  Qed.

  Lemma term_derivation_product :
    term_derivation name (b ++ flat (f1 ++ this name pow :: f2))
    = Ok (if Z.eqb n 1 then b ++ flat (f1 ++ f2)
          else (str_of_Z n ++ L "*" ++ b) ++ flat (f1 ++ f2) ++ L "*" ++ theta_text name ++ L "**" ++ str_of_Z (n - 1)).
  Proof.
    unfold term_derivation. rewrite Np. cbn [bind].
    rewrite (term_search b f1 name pow n f2) by auto. fold m.
    rewrite coefficient_product, power_product, group3_product. cbv zeta.
    destruct (Z.eqb n 1); [reflexivity|].
    assert (N1 : str_eqb (b ++ flat (f1 ++ f2)) (L "1") = false).
    { apply str_eqb_neq. intro E. apply (f_equal (@length ascii)) in E. rewrite app_length in E. cbn in E. lia. }
    rewrite N1. rewrite <- !app_assoc. reflexivity.
  Qed.
End Product.

(** The bare power of a coverage. *)
Lemma term_derivation_bare name pow n :
  forallb is_species_char name = true -> small_pow pow n -> name_pattern name = Ok (rlit name) ->
  term_derivation name (theta_text name ++ pow)
  = Ok (if Z.eqb n 1 then L "1" else str_of_Z n ++ L "*" ++ theta_text name ++ L "**" ++ str_of_Z (n - 1)).
Proof.
  intros Nm Pw Np. unfold term_derivation. rewrite Np. cbn [bind].
  set (T := theta_text name ++ pow).
  assert (E : search (term_pattern (rlit name)) T =
    Some {| m_before := []; m_caps := (6, []) :: pow_caps 4 pow [(3, theta_text name); (1, [])]; m_rest := [] |}).
  { assert (H : heads (rmatch (term_pattern (rlit name)) [] T) ((6, []) :: pow_caps 4 pow [(3, theta_text name); (1, [])], [])).
    { change (rmatch (term_pattern (rlit name)) [] T)
          with (flat_map (fun m => rmatch (core 3 name) (fst m) (snd m))
                 (map (fun m => ((1, consumed T (snd m)) :: fst m, snd m))
                   (rmatch (RSeq (RGroup 2 (RStar not_newline)) star) [] T ++ [([], T)]))).
      rewrite map_app, flat_map_app.
      rewrite (flat_map_nil _ (map _ (rmatch (RSeq (RGroup 2 (RStar not_newline)) star) [] T))).
      - cbn [app map flat_map fst snd]. rewrite app_nil_r. rewrite consumed_self.
        pose proof (core_first 3 name [(1, [])] pow n [] Pw) as H. rewrite app_nil_r in H. apply H.
        split; [reflexivity|now left].
      - intros x Hx. apply in_map_iff in Hx as ([c t] & <- & Hx). cbn [fst snd].
        apply core_none. intros r ->. apply rmatch_den in Hx.
        apply den_seq_inv in Hx as (t & D1 & D2). apply den_group_inv in D1. apply den_suffix in D1 as [a Ea].
        apply den_chr_inv in D2 as (x & -> & Ex). apply Ascii.eqb_eq in Ex. subst x.
        assert (E2 : [] ++ flat [this name pow] = (L "*" ++ a ++ L "*") ++ theta_text name ++ r).
        { rewrite <- !app_assoc. change (L "*" ++ theta_text name ++ r) with ("*"%char :: theta_text name ++ r).
          rewrite <- Ea. unfold T, flat, ftext, theta_text. cbn [map concat c_tab c_name c_pow this].
          rewrite app_nil_r. cbn [L list_ascii_of_string app]. rewrite <- ?app_assoc. reflexivity. }
        apply occurs_theta in E2; auto using species_no_quote; [| |reflexivity].
        + destruct E2 as (g1 & g & g2 & E3 & _ & _ & Ea2 & _). destruct g1 as [|y g1].
          * cbn [flat map concat app L list_ascii_of_string] in Ea2. injection Ea2 as Ea2.
            destruct a; discriminate.
          * injection E3 as _ E3. destruct g1; discriminate.
        + repeat constructor; auto. exact (small_pow_chars pow n Pw). }
    destruct H as [l E]. exact (search_first _ _ _ _ l E). }
  rewrite E. unfold term_coefficient, term_power, truthy, group_text, group. cbn [m_caps].
  destruct Pw as [[-> ->]|(d & D & -> & ->)]; cbn [pow_caps L list_ascii_of_string app cap Nat.eqb andb];
    [reflexivity|].
  destruct (Z.eqb (int_of [d]) 1); [reflexivity|]. cbn [str_eqb]. rewrite Ascii.eqb_refl. cbn [andb].
  reflexivity.
Qed.

(** ** Containment *)
Lemma is_prefix_spec p s : is_prefix p s = true <-> exists r, s = p ++ r.
Proof.
  revert s. induction p as [|x p IH]; intros s; cbn.
  - split; eauto.
  - destruct s as [|y s]; [split; [discriminate|intros [r E]; discriminate]|].
    rewrite andb_true_iff, IH. split.
    + intros [E (r & ->)]. apply Ascii.eqb_eq in E. subst. eauto.
    + intros (r & E). injection E as -> ->. split; [apply Ascii.eqb_refl|eauto].
Qed.
Lemma contains_spec p s : contains p s = true <-> exists a r, s = a ++ p ++ r.
Proof.
  induction s as [|y s IH]; cbn [contains]; rewrite orb_true_iff, is_prefix_spec.
  - split.
    + intros [(r & E)|E]; [exists [], r; auto|discriminate].
    + intros (a & r & E). left. symmetry in E. apply app_eq_nil in E as [-> E]. eauto.
  - rewrite IH. split.
    + intros [(r & E)|(a & r & ->)]; [exists [], r; auto|exists (y :: a), r; auto].
    + intros (a & r & E). destruct a as [|z a]; [left; eauto|].
      injection E as -> E. right. eauto.
Qed.

Lemma contains_theta b fs name : base_ok b -> Forall fac_ok fs -> no_char quote name ->
  contains (theta_text name) (b ++ flat fs) = true <->
  exists f, In f fs /\ c_tab f = L "theta" /\ c_name f = name.
Proof.
  intros B F Q. rewrite contains_spec. split.
  - intros (a & r & E). apply occurs_theta in E as (f1 & f & f2 & -> & T & N & _); auto.
    exists f. split; auto. apply in_or_app. right. now left.
  - intros (f & I & T & N). apply in_split in I as (f1 & f2 & ->).
    exists (b ++ flat f1 ++ L "*"), (c_pow f ++ flat f2). rewrite flat_app, flat_cons. unfold ftext, theta_text.
    rewrite T, N. rewrite <- ?app_assoc. cbn [L list_ascii_of_string app]. rewrite <- ?app_assoc. reflexivity.
Qed.

(** ** Sites in a product *)
Lemma sites_matches c t c' u : In (c', u) (rmatch sites_pattern c t) ->
  exists w, forallb is_word w = true /\ t = theta_text (L "*_" ++ w) ++ u /\ c' = (1, L "*_" ++ w) :: c.
Proof.
  intro H.
  change (rmatch sites_pattern c t) with
    (flat_map (fun m => flat_map (fun m2 => rmatch (rlit (L "']")) (fst m2) (snd m2))
       (map (fun m3 => ((1, consumed (snd m) (snd m3)) :: fst m3, snd m3))
         (flat_map (fun m4 => map (fun rest => (fst m4, rest)) (star_rests is_word (snd m4)))
                   (rmatch (rlit (L "*_")) (fst m) (snd m)))))
      (rmatch (rlit (L "theta['")) c t)) in H.
  apply in_flat_map in H as ([c1 t1] & H1 & H). cbn [fst snd] in H.
  apply in_flat_map in H as ([c2 t2] & H2 & H). cbn [fst snd] in H.
  apply in_map_iff in H2 as ([c3 t3] & E3 & H2). cbn [fst snd] in E3. injection E3 as E3 <-.
  apply in_flat_map in H2 as ([c4 t4] & H4 & H2). cbn [fst snd] in H2.
  apply in_map_iff in H2 as (t5 & E5 & H2). injection E5 as <- <-.
  apply star_rests_In in H2 as (w & -> & W).
  assert (D1 := rmatch_den _ _ _ _ _ H1). apply den_lit in D1. subst t.
  assert (D4 := rmatch_den _ _ _ _ _ H4). apply den_lit in D4. subst t1.
  assert (D := rmatch_den _ _ _ _ _ H). apply den_lit in D. subst t5.
  rewrite rmatch_lit in H1, H4, H. destruct H1 as [H1|[]]. destruct H4 as [H4|[]]. destruct H as [H|[]].
  injection H1 as ->. injection H4 as ->. injection H as <-. subst c2.
  exists w. split; auto. split.
  - unfold theta_text. rewrite <- !app_assoc. reflexivity.
  - f_equal. f_equal. rewrite (app_assoc (L "*_") w). now rewrite consumed_app.
Qed.
Lemma sites_den w u : forallb is_word w = true -> den sites_pattern (theta_text (L "*_" ++ w) ++ u) u.
Proof.
  intro W. unfold theta_text, sites_pattern. rewrite <- !app_assoc.
  assert (DL : forall s t, den (rlit s) (s ++ t) t).
  { intros s t. induction s as [|x s IH]; cbn; [constructor|]. econstructor; [|apply IH]. constructor.
    apply Ascii.eqb_refl. }
  apply (den_seq _ _ _ ((L "*_" ++ w ++ L "']" ++ u))); [apply DL|].
  apply (den_seq _ _ _ (L "']" ++ u)); [|apply DL]. apply den_group.
  apply (den_seq _ _ _ (w ++ L "']" ++ u)); [apply DL|]. now constructor.
Qed.

Lemma word_no_quote w : forallb is_word w = true -> no_char quote (L "*_" ++ w).
Proof. intro H. apply no_char_app. split; [reflexivity|]. revert H. apply forallb_impl. intro c. all_ascii c. Qed.

Lemma fac_at f1 f f2 name : c_tab f = L "theta" -> c_name f = name ->
  flat (f1 ++ f :: f2) = (flat f1 ++ L "*") ++ theta_text name ++ c_pow f ++ flat f2.
Proof.
  intros T N. rewrite flat_app, flat_cons. unfold ftext, theta_text. rewrite T, N.
  rewrite <- ?app_assoc. cbn [L list_ascii_of_string app]. rewrite <- ?app_assoc. reflexivity.
Qed.

Lemma findall_sites fuel : forall b fs x, base_ok b -> Forall fac_ok fs -> length (b ++ flat fs) < fuel ->
  In x (map (fun m => group_text m 1) (findall_fuel fuel sites_pattern (b ++ flat fs))) <->
  exists f w, In f fs /\ c_tab f = L "theta" /\ c_name f = x /\ x = L "*_" ++ w /\ forallb is_word w = true.
Proof.
  induction fuel as [|k IH]; intros b fs x B F Hl; [lia|]. cbn [findall_fuel].
  destruct (search sites_pattern (b ++ flat fs)) as [m|] eqn:Es.
  - unfold search in Es. apply search_from_Some in Es as (a & t & l & Et & _ & Em & Hmin).
    assert (Hin : In (m_caps m, m_rest m) (rmatch sites_pattern [] t)) by (rewrite Em; now left).
    apply sites_matches in Hin as (w & W & Et2 & Ec). rewrite Et2 in Et.
    pose proof Et as Eo. apply occurs_theta in Eo as (f1 & f & f2 & -> & T & N & Ea & Er); auto using word_no_quote.
    rewrite Er. cbn [map In]. rewrite IH.
    + assert (G : group_text m 1 = L "*_" ++ w) by (unfold group_text, group; rewrite Ec; reflexivity).
      rewrite G. split.
      * intros [<-|(g & w' & I & R)].
        -- exists f, w. split; [apply in_or_app; right; now left|auto].
        -- exists g, w'. split; auto. apply in_or_app. right. now right.
      * intros (g & w' & I & Tg & Ng & Ex & W'). apply in_app_or in I as [I|[<-|I]].
        -- exfalso. apply in_split in I as (g1 & g2 & ->).
           apply (Hmin (b ++ flat g1 ++ L "*") (theta_text x ++ c_pow g ++ flat (g2 ++ f :: f2)) (c_pow g ++ flat (g2 ++ f :: f2))).
           ++ rewrite <- app_assoc. cbn [app]. rewrite (fac_at g1 g (g2 ++ f :: f2) x) by auto. rewrite <- !app_assoc. reflexivity.
           ++ rewrite Ea. rewrite (flat_app g1). rewrite !app_length. rewrite flat_cons, app_length.
              unfold ftext. rewrite !app_length. cbn. lia.
           ++ subst x. rewrite Ex. now apply sites_den.
        -- left. congruence.
        -- right. exists g, w'. auto.
    + apply pow_base. apply Forall_app in F as [_ F]. inversion F as [|? ? (_ & _ & Pf) _]. exact Pf.
    + apply Forall_app in F as [_ F]. now inversion F.
    + rewrite <- Er. rewrite Et in Hl. rewrite !app_length in Hl. unfold theta_text in Hl. rewrite !app_length in Hl.
      cbn in Hl. lia.
  - cbn [map In]. split; [intros []|]. intros (f & w & I & T & N & E & W).
    apply in_split in I as (f1 & f2 & ->).
    apply (proj1 (search_None _ _) Es (b ++ flat f1 ++ L "*") (theta_text (L "*_" ++ w) ++ c_pow f ++ flat f2) (c_pow f ++ flat f2)).
    + rewrite (fac_at f1 f f2 (L "*_" ++ w)) by congruence. rewrite <- !app_assoc. reflexivity.
    + now apply sites_den.
Qed.

Lemma sites_found b fs w : base_ok b -> Forall fac_ok fs -> forallb is_word w = true ->
  str_mem (L "*_" ++ w) (map (fun m => group_text m 1) (findall sites_pattern (b ++ flat fs))) = true <->
  exists f, In f fs /\ c_tab f = L "theta" /\ c_name f = L "*_" ++ w.
Proof.
  intros B F W. rewrite str_mem_In. unfold findall. rewrite findall_sites by (auto; lia). split.
  - intros (f & w' & I & T & N & _). eauto.
  - intros (f & I & T & N). exists f, w. auto.
Qed.

(** ** Replacing the free site *)
Lemma search_at r a t c rest l bfr : rmatch r [] t = (c, rest) :: l ->
  (forall a1 a2 u, a = a1 ++ a2 -> a2 <> [] -> ~ den r (a2 ++ t) u) ->
  search_from r bfr (a ++ t) = Some {| m_before := rev bfr ++ a; m_caps := c; m_rest := rest |}.
Proof.
  intro E. revert bfr. induction a as [|x a IH]; intros bfr H.
  - cbn [app]. rewrite app_nil_r. exact (search_from_first r bfr t c rest l E).
  - cbn [app]. rewrite search_from_skip.
    + rewrite IH.
      * cbn [rev]. now rewrite <- app_assoc.
      * intros a1 a2 u Ea Na. apply (H (x :: a1) a2 u); auto. now rewrite Ea.
    + apply rmatch_nil_iff. intros u D. apply (H [] (x :: a) u); auto. discriminate.
Qed.

Lemma free_den site t u : den (free_pattern site) t u ->
  exists us, forallb (Ascii.eqb "_") us = true /\ t = theta_text (L "*" ++ us ++ L "_" ++ site) ++ u.
Proof.
  intro D. apply den_seq_inv in D as (t1 & D1 & D). apply den_lit in D1. subst t.
  apply den_seq_inv in D as (t2 & D2 & D3). apply den_lit in D3. subst t2.
  inversion D2; subst. exists a. split; auto. unfold theta_text. rewrite <- !app_assoc. reflexivity.
Qed.

Lemma free_first site c u : ~ In "_"%char site ->
  heads (rmatch (free_pattern site) c (theta_text (L "*_" ++ site) ++ u)) (c, u).
Proof.
  intro N.
  change (rmatch (free_pattern site) c (theta_text (L "*_" ++ site) ++ u))
    with (flat_map (fun m => flat_map (fun m2 => rmatch (rlit (L "_" ++ site ++ L "']")) (fst m2) (snd m2))
            (map (fun rest => (fst m, rest)) (star_rests (Ascii.eqb "_") (snd m))))
          (rmatch (rlit (L "theta['*")) c (theta_text (L "*_" ++ site) ++ u))).
  replace (theta_text (L "*_" ++ site) ++ u) with (L "theta['*" ++ (L "_" ++ site ++ L "']") ++ u)
    by (unfold theta_text; rewrite <- !app_assoc; reflexivity).
  rewrite rmatch_lit. cbn [flat_map fst snd]. rewrite app_nil_r.
  assert (G : flat_map (fun m2 : caps * str => rmatch (rlit (L "_" ++ site ++ L "']")) (fst m2) (snd m2))
      (map (fun rest => (c, rest)) (star_rests (Ascii.eqb "_") ((L "_" ++ site ++ L "']") ++ u)))
    = flat_map (fun rest => rmatch (rlit (L "_" ++ site ++ L "']")) c rest)
        (star_rests (Ascii.eqb "_") ((L "_" ++ site ++ L "']") ++ u))).
  { induction (star_rests (Ascii.eqb "_") ((L "_" ++ site ++ L "']") ++ u)) as [|x l IH]; [reflexivity|].
    cbn [map flat_map fst snd]. now rewrite IH. }
  rewrite G. clear G.
  destruct (star_first (Ascii.eqb "_") (fun rest => rmatch (rlit (L "_" ++ site ++ L "']")) c rest)
              [] ((L "_" ++ site ++ L "']") ++ u) eq_refl) as [ys Ey].
  - intros a r Ea Na Ha. apply rmatch_nil_iff. intros v D. apply den_lit in D. subst r.
    destruct a as [|x a]; [congruence|]. cbn [forallb] in Ha. apply andb_prop in Ha as [Hx Ha].
    apply Ascii.eqb_eq in Hx. subst x. cbn [L list_ascii_of_string app] in Ea. injection Ea as Ea.
    rewrite <- app_assoc in Ea.
    destruct site as [|z site].
    + destruct a as [|y a]; cbn in Ea; [discriminate|]. cbn [forallb] in Ha. apply andb_prop in Ha as [Hy _].
      apply Ascii.eqb_eq in Hy. subst y. discriminate.
    + destruct a as [|y a]; cbn in Ea; injection Ea as E1 E2.
      * apply N. subst z. now left.
      * cbn [forallb] in Ha. apply andb_prop in Ha as [Hy _]. apply Ascii.eqb_eq in Hy. subst. apply N. now left.
  - cbn [app] in Ey. rewrite Ey. apply heads_app. rewrite rmatch_lit. apply heads_one.
Qed.

Lemma sub_free site repl b fs pw : base_ok b -> Forall fac_ok fs -> forallb pow_char pw = true ->
  forallb is_letter site = true ->
  (forall f us, In f fs -> c_tab f = L "theta" -> forallb (Ascii.eqb "_") us = true ->
     c_name f <> L "*" ++ us ++ L "_" ++ site) ->
  re_sub (free_pattern site) repl (b ++ flat fs ++ L "*" ++ theta_text (L "*_" ++ site) ++ pw)
  = b ++ flat fs ++ L "*" ++ repl ++ pw.
Proof.
  intros B F Bp W H. unfold re_sub.
  set (a := b ++ flat fs ++ L "*"). set (t := theta_text (L "*_" ++ site) ++ pw).
  replace (b ++ flat fs ++ L "*" ++ t) with (a ++ t)
    by (unfold a; rewrite <- !app_assoc; reflexivity).
  assert (Wq : forall us, forallb (Ascii.eqb "_") us = true -> no_char quote (L "*" ++ us ++ L "_" ++ site)).
  { intros us Hu. apply no_char_app. split; [reflexivity|]. apply no_char_app. split.
    - revert Hu. apply forallb_impl. intro c. all_ascii c.
    - apply no_char_app. split; [reflexivity|]. revert W. apply forallb_impl. intro c. all_ascii c. }
  assert (Nu : ~ In "_"%char site).
  { intro I. rewrite forallb_forall in W. apply W in I. discriminate. }
  assert (Ws : forallb is_species_char (L "*_" ++ site) = true).
  { rewrite forallb_app. cbn [forallb L list_ascii_of_string andb]. revert W. apply forallb_impl. intro c. all_ascii c. }
  set (g := {| c_tab := L "theta"; c_name := L "*_" ++ site; c_pow := pw |}).
  assert (Fg : Forall fac_ok (fs ++ [g])).
  { apply Forall_app. split; auto. constructor; [|constructor]. split; [now left|auto]. }
  assert (Eg : b ++ flat (fs ++ [g]) = a ++ t).
  { rewrite (fac_at fs g [] (L "*_" ++ site)) by auto. unfold a, t. cbn [flat map concat c_pow g].
    rewrite app_nil_r, <- !app_assoc. reflexivity. }
  destruct (free_first site [] pw Nu) as [l E].
  assert (Es : search (free_pattern site) (a ++ t) = Some {| m_before := a; m_caps := []; m_rest := pw |}).
  { unfold search. rewrite (search_at _ a t [] pw l [] E); [reflexivity|].
    intros a1 a2 u Ea Na D. apply free_den in D as (us & Hu & Et).
    rewrite Ea, <- app_assoc, Et in Eg. apply occurs_theta in Eg; auto.
    destruct Eg as (f1 & f & f2 & Ef & T & N & E1 & _).
    destruct f2 as [|f' f2].
    - apply app_inj_tail in Ef as [<- <-]. fold a in E1. rewrite E1 in Ea.
      rewrite <- (app_nil_r a) in Ea at 1. apply app_inv_head in Ea. congruence.
    - apply (H f us); auto. destruct (exists_last (l := f' :: f2)) as (f2' & z & Ez); [discriminate|].
      rewrite Ez in Ef. change (fs ++ [g] = f1 ++ (f :: f2') ++ [z]) in Ef. rewrite app_assoc in Ef.
      apply app_inj_tail in Ef as [-> _]. apply in_or_app. right. now left. }
  cbn [sub_fuel]. rewrite Es. cbn [m_before m_rest].
  assert (En : sub_fuel (length (a ++ t)) (free_pattern site) repl pw = pw).
  { destruct (length (a ++ t)) as [|k]; [reflexivity|]. cbn [sub_fuel].
    assert (search (free_pattern site) pw = None) as ->; [|reflexivity].
    apply search_None. intros a1 t1 u Ea D. apply free_den in D as (us & Hu & Et). subst t1.
    assert (Bw := base_no_t _ (pow_base _ Bp)). rewrite Ea in Bw. apply no_char_app in Bw as [_ Bw].
    revert Bw. apply (no_char_mid "t" []). }
  rewrite En. unfold a. rewrite <- !app_assoc. reflexivity.
Qed.
