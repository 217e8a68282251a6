(** The names in the generated file of absolute energies, and its use without changes. *)
From Coq Require Import String Ascii List ZArith NArith Bool Arith Reals Lia Lra Sorted.
Import ListNotations.
From Verif Require Import PyBase PyBaseFacts PyData_Model PyData_Spec Fmt_Proofs
  Rxn_Model Rxn_Spec Rxn_Proofs Rxn_More Species_Model Species_Spec Species_Proofs PyReal Energy_Model Energy_Spec
  Energy_Proofs Gen_Model Gen_Spec Gen_Proofs.
Local Open Scope list_scope.
Local Open Scope nat_scope.
Local Notation number_text := PyData_Model.number_text.

Definition five (p : lists) : list str := l_gas p ++ l_liq p ++ l_ads p ++ l_ts p ++ l_site p.

Lemma star_species s : forallb is_site_char s = true -> s <> [] ->
  before_last_underscore (L "*_" ++ s) = L "*" /\ after_digits (after_last_underscore (L "*_" ++ s)) = s.
Proof.
  intros H N. change (L "*_" ++ s) with (L "*" ++ "_"%char :: s).
  destruct (last_underscore_split (L "*") s) as [-> ->].
  { apply (no_underscore_digits_site [] s); [reflexivity|exact H]. }
  split; [reflexivity|]. apply (after_digits_site [] s); auto.
Qed.

(** A site name is in none of the other lists. *)
Lemma site_not_species es p f g : parse_rxns es = Ok p -> occurs f (l_rxns p) -> occurs g (l_rxns p) ->
  surface_site (f_site f) -> f_species_site g = L "*_" ++ f_site f ->
  ~ (gas_formula g \/ liquid_formula g \/ ads_formula g \/ ts_formula g).
Proof.
  intros H Of Og S E. destruct (parse_rxns_facts es p H) as (M & _).
  pose proof (occurs_readable _ _ _ M Of) as Rf. pose proof (occurs_readable _ _ _ M Og) as Rg.
  destruct (readable_name f Rf) as (ms & _ & _ & _ & _ & _ & N & T).
  destruct (readable_name_parts g Rg) as (P1 & P2 & _). rewrite E in P1, P2.
  destruct (star_species (f_site f) T N) as [Q1 Q2]. rewrite Q1 in P1. rewrite Q2 in P2.
  unfold gas_formula, liquid_formula, ads_formula, ts_formula. rewrite <- P1, <- P2.
  destruct S as [S1 S2]. intros [X|[X|[(_ & _ & X)|[_ X]]]]; try congruence.
  - apply X. left. reflexivity.
  - destruct X as [X|[]]. discriminate.
Qed.

Lemma NoDup_app {A} (a b : list A) : NoDup a -> NoDup b -> (forall x, In x a -> In x b -> False) -> NoDup (a ++ b).
Proof.
  induction 1 as [|x a Hx Ha IH]; intros Hb D; [exact Hb|]. cbn. constructor.
  - rewrite in_app_iff. intros [H|H]; [contradiction|]. apply (D x); [left; reflexivity|exact H].
  - apply IH; [exact Hb|]. intros y H1 H2. apply (D y); [right|]; assumption.
Qed.

Lemma five_NoDup es p : parse_rxns es = Ok p -> NoDup (five p).
Proof.
  intro H. destruct (parse_rxns_facts es p H) as (M & N1 & N2 & N3 & N4 & N5 & G & Q & T & A & S).
  assert (D : forall n, _) by (intro n; exact (parse_rxns_disjoint es p n H)).
  assert (D2 : forall n, In n (l_site p) -> ~ (In n (l_gas p) \/ In n (l_liq p) \/ In n (l_ads p) \/ In n (l_ts p))).
  { intros n Hn X. apply S in Hn as (f & Of & Sf & ->).
    assert (Y : exists g, occurs g (l_rxns p) /\ (gas_formula g \/ liquid_formula g \/ ads_formula g \/ ts_formula g) /\
                L "*_" ++ f_site f = f_species_site g).
    { destruct X as [X|[X|[X|X]]]; [apply G in X|apply Q in X|apply A in X|apply T in X];
        destruct X as (g & Og & Rg & Eg); exists g; auto 8. }
    destruct Y as (g & Og & Rg & Eg). apply (site_not_species es p f g H Of Og Sf (eq_sym Eg) Rg). }
  apply sorted_NoDup in N1, N2, N3, N4, N5. unfold five.
  apply NoDup_app; [assumption| |].
  apply NoDup_app; [assumption| |].
  apply NoDup_app; [assumption| |].
  apply NoDup_app; [assumption|assumption|].
  - intros x X1 X2. apply (D2 x X2). auto.
  - intros x X1 X2. apply in_app_iff in X2 as [X2|X2].
    + destruct (D x) as (_ & _ & _ & _ & _ & E). tauto.
    + apply (D2 x X2). auto.
  - intros x X1 X2. rewrite !in_app_iff in X2. destruct (D x) as (E1 & E2 & E3 & E4 & E5 & E6).
    destruct X2 as [X2|[X2|X2]]; [tauto|tauto|]. apply (D2 x X2). auto.
  - intros x X1 X2. rewrite !in_app_iff in X2. destruct (D x) as (E1 & E2 & E3 & E4 & E5 & E6).
    destruct X2 as [X2|[X2|[X2|X2]]]; [tauto|tauto|tauto|]. apply (D2 x X2). auto.
Qed.

Lemma species_char_plain c : is_species_char c = true -> plain_char c = true.
Proof. destruct c as [[] [] [] [] [] [] [] []]; vm_compute; intro H; auto; discriminate H. Qed.
Lemma site_char_plain c : is_site_char c = true -> plain_char c = true.
Proof. destruct c as [[] [] [] [] [] [] [] []]; vm_compute; intro H; auto; discriminate H. Qed.
Lemma digit_plain c : is_digit c = true -> plain_char c = true.
Proof. destruct c as [[] [] [] [] [] [] [] []]; vm_compute; intro H; auto; discriminate H. Qed.

Lemma name_plain es p n : parse_rxns es = Ok p -> In n (five p) -> plain n = true.
Proof.
  intros H Hn. destruct (parse_rxns_facts es p H) as (M & _).
  apply (names_exact es p H) in Hn. unfold plain.
  destruct Hn as [f O _|f O _]; destruct (readable_name f (occurs_readable _ _ _ M O)) as (ms & E & _ & D & S & _ & _ & T).
  - rewrite E, forallb_app. apply andb_true_iff. split; [eapply forallb_impl; [|exact S]; apply species_char_plain|].
    cbn [forallb]. apply andb_true_iff. split; [reflexivity|]. rewrite forallb_app. apply andb_true_iff. split.
    + eapply forallb_impl; [|exact D]. apply digit_plain.
    + eapply forallb_impl; [|exact T]. apply site_char_plain.
  - cbn [app L list_ascii_of_string forallb]. rewrite (forallb_impl is_site_char plain_char _ site_char_plain T).
    reflexivity.
Qed.

Definition zeros (p : lists) : list (str * str) := map (fun n => (n, L "0.0")) (five p).

Lemma fst_zeros p : map fst (zeros p) = five p.
Proof. unfold zeros. rewrite map_map. apply map_id. Qed.

Lemma zeros_good es p : parse_rxns es = Ok p -> Forall good_pair (zeros p).
Proof.
  intro H. apply Forall_forall. intros kv X. unfold zeros in X. apply in_map_iff in X as (n & <- & Hn).
  split; [|reflexivity]. eapply name_plain; eauto.
Qed.

(** A table with the same value everywhere. *)
Lemma dget_const {V} (v : V) l n : dget (map (fun n => (n, v)) l) n = if str_mem n l then Some v else None.
Proof.
  induction l as [|x l IH]; [reflexivity|]. cbn [map dget fst snd str_mem existsb].
  rewrite IH. destruct (str_eqb n x); reflexivity.
Qed.

(** ** All energies zero *)
Definition zero_table (p : lists) : dict R := map (fun n => (n, 0%R)) (five p).

Definition lacking (p : lists) (f : formula) : Prop :=
  occurs f (l_rxns p) /\ star_off_surface f /\ ~ energy_name (l_rxns p) (L "*_" ++ f_site f).

Lemma zero_tab es p f n : parse_rxns es = Ok p -> name_for f n ->
  dget (zero_table p) n = if str_mem n (five p) then Some 0%R else None.
Proof. intros _ _. apply dget_const. Qed.

Lemma covered es p f : parse_rxns es = Ok p -> occurs f (l_rxns p) -> ~ lacking p f -> tabulated (zero_table p) f 0%R.
Proof.
  intros H O N. unfold tabulated.
  assert (X : exists n, name_for f n /\ energy_name (l_rxns p) n).
  { destruct (has_char "*" (f_species_site f)) eqn:E.
    - apply has_char_In in E. exists (L "*_" ++ f_site f). split; [constructor 2; exact E|].
      destruct (str_eqb (f_site f) (L "g")) eqn:G; [|destruct (str_eqb (f_site f) (L "l")) eqn:Q].
      + apply str_eqb_eq in G. apply (names_exact es p H).
        destruct (in_dec (list_eq_dec ascii_dec) (L "*_" ++ f_site f) (five p)) as [I|I]; [exact I|].
        exfalso. apply N. split; [exact O|]. split; [split; [exact E|left; exact G]|].
        intro X. apply I. apply (names_exact es p H). exact X.
      + apply str_eqb_eq in Q. apply (names_exact es p H).
        destruct (in_dec (list_eq_dec ascii_dec) (L "*_" ++ f_site f) (five p)) as [I|I]; [exact I|].
        exfalso. apply N. split; [exact O|]. split; [split; [exact E|right; exact Q]|].
        intro X. apply I. apply (names_exact es p H). exact X.
      + constructor 2; [exact O|]. split; intro X; rewrite X, str_eqb_refl in *; discriminate.
    - assert (NS : ~ starred f) by (unfold starred; rewrite <- has_char_In; congruence).
      exists (f_species_site f). split; [constructor 1; exact NS|]. constructor 1; [exact O|].
      destruct (parse_rxns_facts es p H) as (M & _).
      destruct (readable_name f (occurs_readable _ _ _ M O)) as (ms & E1 & _).
      assert (NS2 : ~ In "*"%char (f_species f)).
      { intro X. apply NS. unfold starred. rewrite E1. apply in_or_app. left. exact X. }
      unfold gas_formula, liquid_formula, ads_formula, ts_formula, surface_site.
      destruct (str_eqb (f_site f) (L "g")) eqn:G; [apply str_eqb_eq in G; auto|].
      destruct (str_eqb (f_site f) (L "l")) eqn:Q; [apply str_eqb_eq in Q; auto|].
      assert (SS : f_site f <> L "g" /\ f_site f <> L "l")
        by (split; intro X; rewrite X, str_eqb_refl in *; discriminate).
      destruct (has_char "-" (f_species f)) eqn:D.
      + apply has_char_In in D. auto 8.
      + right. right. left. repeat split; try tauto. rewrite <- has_char_In. congruence. }
  destruct X as (n & N1 & N2). exists n. split; [exact N1|].
  apply (names_exact es p H) in N2. rewrite (zero_tab es p f n H N1).
  assert (str_mem n (five p) = true) as ->; [now apply str_mem_In|reflexivity].
Qed.

Lemma not_covered es p f e : parse_rxns es = Ok p -> lacking p f -> ~ tabulated (zero_table p) f e.
Proof.
  intros H (O & (S1 & S2) & N) (n & N1 & N2).
  assert (n = L "*_" ++ f_site f) as -> by (eapply name_for_fun; [exact N1|constructor 2; exact S1]).
  rewrite (zero_tab es p f _ H N1) in N2. destruct (str_mem _ _) eqn:E in N2; [|discriminate].
  apply N. apply (names_exact es p H). now apply str_mem_In.
Qed.

Lemma weigh_zero fs : weigh fs (repeat 0%R (length fs)) = 0%R.
Proof.
  unfold weigh. induction fs as [|f fs IH]; [reflexivity|]. cbn [length repeat combine map Rsum fst snd].
  cbn in IH |- *. rewrite IH. lra.
Qed.

Lemma energy_zero ed fs : (forall f, In f fs -> tabulated ed f 0%R) -> energy_is ed fs 0%R.
Proof.
  intro H. exists (repeat 0%R (length fs)). split; [|symmetry; apply weigh_zero].
  induction fs as [|f fs IH]; cbn; constructor; [apply H; left; reflexivity|].
  apply IH. intros g Hg. apply H. right. exact Hg.
Qed.

Lemma single_zero ed e fls : rxn_formula_list e = Ok fls -> rxn_check_conservation e = Ok true ->
  (forall st f, In st fls -> In f st -> tabulated ed f 0%R) ->
  single_relative true ed e = Ok (0, 0, 0)%R.
Proof.
  intros H CC Z. destruct (formula_list_tolist e fls H) as (sts & E & F).
  destruct (tolist_states e sts E) as [_ Hl].
  assert (G : forall st, In st sts -> state_energy ed st = Ok 0%R).
  { intros st Hst. assert (X : exists fs, In fs fls /\ state_formulas st = Ok fs).
    { clear - F Hst. induction F as [|a b l l' Hab F IH]; [destruct Hst|]. destruct Hst as [<-|Hst].
      - exists b. split; [left; reflexivity|exact Hab].
      - destruct (IH Hst) as (fs & X1 & X2). exists fs. split; [right; exact X1|exact X2]. }
    destruct X as (fs & X1 & X2). eapply state_energy_ok; [exact X2|]. apply energy_zero. intros f Hf.
    apply (Z fs f X1 Hf). }
  assert (NE : sts <> []).
  { unfold rxn_check_conservation in CC. rewrite E in CC. intros ->. discriminate. }
  unfold single_relative. rewrite E. cbn [negb bind].
  destruct sts as [|s0 [|s1 [|s2 [|s3 sts]]]]; [congruence| | | |cbn in Hl; lia];
    unfold lindex; cbn [lfirst llast length Nat.eqb nth_error bind];
    repeat match goal with
           | |- context [state_energy ed ?s] => rewrite (G s) by (cbn; auto); cbn [bind]
           end.
  - repeat (f_equal; try lra).
  - unfold Rmax. destruct (Rle_dec 0 0); repeat (f_equal; try lra).
  - repeat (f_equal; try lra).
Qed.

Lemma checked es p e : parse_rxns es = Ok p -> In e es -> rxn_check_conservation e = Ok true.
Proof. intros H He. apply (proj1 (parse_rxns_ok_iff es) (ex_intro _ p H) e He). Qed.

Definition zero_entries (r : rel_energies) (n : nat) : Prop :=
  r_Gaf r = repeat 0%R n /\ r_Gar r = repeat 0%R n /\ r_dG r = repeat 0%R n.

Lemma relative_zero p es : parse_rxns es = Ok p -> (forall f, ~ lacking p f) ->
  relative_from_absolute true (zero_table p) es =
  Ok {| r_Gaf := repeat 0%R (length es); r_Gar := repeat 0%R (length es); r_dG := repeat 0%R (length es) |}.
Proof.
  intros H N. destruct (parse_rxns_facts es p H) as (M & _).
  assert (E : forall e, In e es -> single_relative true (zero_table p) e = Ok (0, 0, 0)%R).
  { intros e He. apply mapM_ok_iff in M.
    assert (X : exists fls, In fls (l_rxns p) /\ rxn_formula_list e = Ok fls).
    { clear - M He. induction M as [|a b l l' Hab F IH]; [destruct He|]. destruct He as [<-|He].
      - exists b. split; [left; reflexivity|exact Hab].
      - destruct (IH He) as (fs & X1 & X2). exists fs. split; [right; exact X1|exact X2]. }
    destruct X as (fls & X1 & X2). eapply single_zero; [exact X2|eapply checked; eauto|]. intros st f Hst Hf.
    apply (covered es p f H); [|apply N]. exists fls, st. auto. }
  unfold relative_from_absolute.
  assert (Y : mapM (single_relative true (zero_table p)) es = Ok (repeat (0, 0, 0)%R (length es))).
  { clear - E. induction es as [|e es IH]; [reflexivity|]. cbn [mapM length repeat].
    rewrite (E e) by (left; reflexivity). rewrite IH; [reflexivity|]. intros x Hx. apply E. right. exact Hx. }
  rewrite Y. cbn [bind]. assert (R : forall A B (g : A -> B) a n, map g (repeat a n) = repeat (g a) n).
  { intros A B g a n. induction n; [reflexivity|]. cbn. now f_equal. }
  rewrite !R. reflexivity.
Qed.

Lemma relative_lacking p es f : parse_rxns es = Ok p -> lacking p f ->
  relative_from_absolute true (zero_table p) es = Err KeyError.
Proof.
  intros H K. destruct (parse_rxns_facts es p H) as (M & _). pose proof M as M0. apply mapM_ok_iff in M.
  (* every single reaction is fine or a KeyError *)
  assert (E : forall e, In e es -> (exists t, single_relative true (zero_table p) e = Ok t) \/
                                   single_relative true (zero_table p) e = Err KeyError).
  { intros e He.
    assert (X : exists fls, In fls (l_rxns p) /\ rxn_formula_list e = Ok fls).
    { clear - M He. induction M as [|a b l l' Hab F IH]; [destruct He|]. destruct He as [<-|He].
      - exists b. split; [left; reflexivity|exact Hab].
      - destruct (IH He) as (fs & X1 & X2). exists fs. split; [right; exact X1|exact X2]. }
    destruct X as (fls & X1 & X2).
    assert (C : (forall st g, In st fls -> In g st -> tabulated (zero_table p) g 0%R) \/
                (exists st, In st fls /\ untabulated (zero_table p) st)).
    { assert (DD : forall st, In st fls -> (forall g, In g st -> tabulated (zero_table p) g 0%R) \/ untabulated (zero_table p) st).
      { intros st Hst. destruct (table_cases (zero_table p) st) as [(vs & Hv)|U]; [left|right; exact U].
        intros g Hg. assert (exists v, tabulated (zero_table p) g v) as (v & n & V1 & V2).
        { clear - Hv Hg. induction Hv as [|a b l l' Hab F IH]; [destruct Hg|]. destruct Hg as [<-|Hg]; eauto. }
        exists n. split; [exact V1|]. rewrite (zero_tab es p g n H V1) in *.
        destruct (str_mem n (five p)); [reflexivity|discriminate]. }
      clear - DD. induction fls as [|st fls IH]; [left; intros ? ? []|].
      destruct (DD st (or_introl eq_refl)) as [A|A]; [|right; exists st; split; [left; reflexivity|exact A]].
      destruct IH as [B|(st' & B1 & B2)].
      - intros st' Hst'. apply DD. right. exact Hst'.
      - left. intros st' g [<-|H1] H2; [apply A; exact H2|apply (B st' g H1 H2)].
      - right. exists st'. split; [right; exact B1|exact B2]. }
    destruct C as [C|(st & C1 & C2)].
    - left. eexists. eapply single_zero; [exact X2|eapply checked; eauto|exact C].
    - right. eapply single_missing; eauto. }
  destruct (relative_from_absolute true (zero_table p) es) as [r|er] eqn:R.
  - exfalso. apply relative_from_absolute_ok in R as (l & R & _).
    pose proof K as (O & _). destruct O as (fls & st & I1 & I2 & I3).
    assert (X : exists e, In e es /\ rxn_formula_list e = Ok fls).
    { clear - M I1. induction M as [|a b l l' Hab F IH]; [destruct I1|]. destruct I1 as [<-|I1].
      - exists a. split; [left; reflexivity|exact Hab].
      - destruct (IH I1) as (e & X1 & X2). exists e. split; [right; exact X1|exact X2]. }
    destruct X as (e & X1 & X2).
    assert (Y : single_relative true (zero_table p) e = Err KeyError).
    { eapply single_missing; [exact X2|exact I2|]. exists f. split; [exact I3|].
      intros v. eapply not_covered; eauto. }
    apply mapM_ok_iff in R. clear - R X1 Y. induction R as [|a b l l' Hab F IH]; [destruct X1|].
    destruct X1 as [<-|X1]; [congruence|auto].
  - apply relative_from_absolute_err in R as (e & I & R). destruct (E e I) as [(t & E2)|E2]; congruence.
Qed.

Lemma zeros_values (num : str -> R) p : num (L "0.0") = 0%R ->
  map (fun kv => (fst kv, num (snd kv))) (zeros p) = zero_table p.
Proof. intro H. unfold zeros, zero_table. rewrite map_map. cbn [fst snd]. now rewrite H. Qed.

Lemma absolute_unedited num es p name fs st :
  num (L "0.0") = 0%R -> parse_rxns es = Ok p ->
  dget fs name = Some (filled_absolute (zeros p)) ->
  let out := absolute_load num fs name es st in
  ((forall f, ~ lacking p f) ->
     snd out = Ok tt /\ exists r, es_rel (fst out) = Some r /\ zero_entries r (length es)) /\
  ((exists f, lacking p f) -> snd out = Err KeyError).
Proof.
  intros Hn H E. rewrite (absolute_filled num fs name es st (zeros p)).
  - rewrite zeros_values by assumption. unfold abs_parse_data. cbn [es_has_abs]. split.
    + intro N. rewrite (relative_zero p es H N). cbn. split; [reflexivity|]. eexists. split; [reflexivity|].
      repeat split.
    + intros (f & K). rewrite (relative_lacking p es f H K). reflexivity.
  - exact (zeros_good es p H).
  - rewrite fst_zeros. exact (five_NoDup es p H).
  - exact E.
Qed.
