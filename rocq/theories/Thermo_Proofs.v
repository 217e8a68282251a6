From Coq Require Import String Ascii List ZArith QArith Qreals Bool Arith Reals Lra Lia.
Import ListNotations.
From Verif Require Import PyBase PyBaseFacts Regex Rxn_Model Rxn_Spec Rxn_Proofs Rxn_Count Rxn_More
  Mol_Model PyReal Energy_Model Energy_Spec Energy_Proofs Thermo_Model Rate_Spec Rate_Model Rate_Proofs Thermo_Spec.
Open Scope list_scope.
Open Scope R_scope.

Lemma add_corrections_ok cf fs : forall acc cs,
  Forall2 (fun f c => cf (f_text f) = Ok c) fs cs ->
  add_corrections cf acc fs = Ok (acc + Rsum cs).
Proof.
  induction fs as [|f fs IH]; intros acc cs H; inversion H as [|? c ? cs' Hc Hcs]; subst; cbn.
  - f_equal. lra.
  - rewrite Hc. cbn [bind]. rewrite (IH _ cs' Hcs). f_equal. lra.
Qed.

Lemma state_change_iff cf fs d : add_corrections cf 0 fs = Ok d <-> state_change cf fs d.
Proof.
  split.
  - intro H.
    assert (X : (exists cs, Forall2 (fun f c => cf (f_text f) = Ok c) fs cs)
                \/ (forall acc, exists e, add_corrections cf acc fs = Err e)).
    { clear H. induction fs as [|f fs IH].
      - left. exists []. constructor.
      - destruct (cf (f_text f)) as [c|e] eqn:E.
        + destruct IH as [[cs IH]|IH].
          * left. exists (c :: cs). constructor; auto.
          * right. intro acc. cbn. rewrite E. cbn. apply IH.
        + right. intro acc. exists e. cbn. now rewrite E. }
    destruct X as [[cs X]|X].
    + exists cs. split; auto. rewrite (add_corrections_ok _ _ _ _ X) in H. injection H as <-. lra.
    + destruct (X 0) as [e Xe]. congruence.
  - intros (cs & H & ->). rewrite (add_corrections_ok _ _ _ _ H). f_equal. lra.
Qed.

Lemma state_deltas_iff cf fls ds : state_deltas cf fls = Ok ds <-> Forall2 (state_change cf) fls ds.
Proof.
  unfold state_deltas. rewrite mapM_ok_iff. split; intro H; induction H; constructor; auto;
    now apply state_change_iff.
Qed.

Lemma change_corrected ds t : length ds = 2%nat \/ length ds = 3%nat -> corrected ds t (change_energies ds t).
Proof.
  destruct t as [[a b] c]. destruct ds as [|d0 [|d1 [|d2 [|? ?]]]]; cbn [length]; intros [H|H]; try lia.
  - unfold change_energies.
    replace (Rmax (0 + d0) (0 + c + d1) - (0 + d0), Rmax (0 + d0) (0 + c + d1) - (0 + c + d1), 0 + c + d1 - (0 + d0))
      with (Rmax 0 (c + (d1 - d0)), Rmax 0 (- (c + (d1 - d0))), c + (d1 - d0)).
    + now constructor.
    + assert (A : Rmax 0 (c + (d1 - d0)) = Rmax (0 + d0) (0 + c + d1) - (0 + d0))
        by (unfold Rmax; repeat destruct (Rle_dec _ _); lra).
      assert (B : Rmax 0 (- (c + (d1 - d0))) = Rmax (0 + d0) (0 + c + d1) - (0 + c + d1))
        by (unfold Rmax; repeat destruct (Rle_dec _ _); lra).
      rewrite A, B. f_equal. lra.
  - constructor.
Qed.

Lemma corrected_fun ds t t1 t2 : corrected ds t t1 -> corrected ds t t2 -> t1 = t2.
Proof. intros H1 H2. destruct H1; inversion H2; subst; auto. Qed.

Lemma lset_length {A} (l : list A) i x : length (lset l i x) = length l.
Proof. revert i. induction l as [|y l IH]; intros [|i]; cbn; auto. Qed.
Lemma lset_same {A} (l : list A) i x y : nth_error l i = Some y -> nth_error (lset l i x) i = Some x.
Proof. revert i. induction l as [|z l IH]; intros [|i]; cbn; try discriminate; auto. Qed.
Lemma lset_other {A} (l : list A) i j x : i <> j -> nth_error (lset l i x) j = nth_error l j.
Proof.
  revert i j. induction l as [|z l IH]; intros [|i] [|j] H; cbn; auto; try congruence.
Qed.

Lemma rel_set_same r i t u : entry_t r i t -> entry_t (rel_set r i u) i u.
Proof.
  destruct u as [[a b] c]. unfold entry_t, entry, rel_set. cbn. intros (A & B & C).
  repeat split; eapply lset_same; eauto.
Qed.
Lemma rel_set_other r i j t u : i <> j -> (entry_t (rel_set r i u) j t <-> entry_t r j t).
Proof.
  intro H. destruct u as [[a b] c]. unfold entry_t, entry, rel_set. cbn. now rewrite !lset_other.
Qed.
Lemma rel_set_entries r i u n : entries r n -> entries (rel_set r i u) n.
Proof. destruct u as [[a b] c]. unfold entries, rel_set. cbn. now rewrite !lset_length. Qed.

Lemma rel_get_t r i t : rel_get r i = Ok t <-> entry_t r i t.
Proof. destruct t as [[a b] c]. apply rel_get_entry. Qed.

Lemma entry_t_fun r i t1 t2 : entry_t r i t1 -> entry_t r i t2 -> t1 = t2.
Proof.
  destruct t1 as [[a b] c], t2 as [[a' b'] c']. unfold entry_t. cbn. intros H1 H2.
  destruct (entry_fun _ _ _ _ _ _ _ _ H1 H2) as (-> & -> & ->). reflexivity.
Qed.

Lemma Forall2_fun {A B} (P : A -> B -> Prop) l1 l2 l3 :
  (forall x y z, P x y -> P x z -> y = z) -> Forall2 P l1 l2 -> Forall2 P l1 l3 -> l2 = l3.
Proof.
  intros F H. revert l3. induction H as [|x y l1 l2 Hxy H IH]; intros l3 H3; inversion H3; subst; auto.
  f_equal; eauto.
Qed.

Lemma state_change_fun cf fs d1 d2 : state_change cf fs d1 -> state_change cf fs d2 -> d1 = d2.
Proof. intros H1 H2. apply state_change_iff in H1, H2. congruence. Qed.

Lemma correct_one_ok cf rxns i r t fls ds :
  entry_t r i t -> nth_error rxns i = Some fls -> Forall2 (state_change cf) fls ds ->
  correct_one cf rxns i r = Ok (rel_set r i (change_energies ds t)).
Proof.
  intros E F D. unfold correct_one. apply rel_get_t in E. rewrite E. cbn [bind].
  unfold lindex. rewrite F. cbn [bind]. apply state_deltas_iff in D. now rewrite D.
Qed.

Lemma correct_loop_ok cf rxns n : forall i r,
  (forall j, (i <= j < i + n)%nat -> correctable cf rxns r j) ->
  exists r', correct_loop cf rxns i n r = (r', Ok tt) /\
    (forall k, entries r k -> entries r' k) /\
    (forall j t, (j < i \/ i + n <= j)%nat -> (entry_t r' j t <-> entry_t r j t)) /\
    (forall j t fls ds t', (i <= j < i + n)%nat -> entry_t r j t -> nth_error rxns j = Some fls ->
       Forall2 (state_change cf) fls ds -> corrected ds t t' -> entry_t r' j t').
Proof.
  induction n as [|n IH]; intros i r H.
  - exists r. cbn. split; auto. split; auto. split; [tauto|]. intros; lia.
  - destruct (H i ltac:(lia)) as (t & fls & ds & E & F & D & Ln).
    cbn [correct_loop]. rewrite (correct_one_ok _ _ _ _ _ _ _ E F D).
    set (r1 := rel_set r i (change_energies ds t)).
    destruct (IH (S i) r1) as (r' & L & En & Out & In).
    { intros j Hj. destruct (H j ltac:(lia)) as (t2 & fls2 & ds2 & E2 & F2 & D2 & Ln2).
      exists t2, fls2, ds2. split; [|auto]. unfold r1. apply rel_set_other; auto. lia. }
    exists r'. split; auto. split.
    { intros k Hk. apply En. now apply rel_set_entries. }
    split.
    { intros j t2 Hj. rewrite Out by lia. unfold r1. apply rel_set_other. lia. }
    intros j t2 fls2 ds2 t' Hj E2 F2 D2 C2.
    destruct (Nat.eq_dec i j) as [<-|N].
    + apply Out; [lia|].
      assert (fls2 = fls) by congruence. subst fls2.
      assert (ds2 = ds) by (eapply Forall2_fun; eauto; intros; eapply state_change_fun; eauto). subst ds2.
      assert (t2 = t) by (eapply entry_t_fun; eauto). subst t2.
      assert (X : corrected ds t (change_energies ds t)).
      { apply change_corrected. apply Forall2_length in D. lia. }
      rewrite (corrected_fun _ _ _ _ C2 X). unfold r1. eapply rel_set_same; eauto.
    + apply (In j t2 fls2 ds2 t'); auto; [lia|]. unfold r1. now apply rel_set_other.
Qed.

(** On failure the reactions before the failing one are already changed, the others not. *)
Lemma correct_loop_err cf rxns n : forall i r r' er,
  correct_loop cf rxns i n r = (r', Err er) ->
  exists j, (i <= j < i + n)%nat /\ correct_one cf rxns j r' = Err er /\
    (forall k t, (k < i \/ j <= k)%nat -> (entry_t r' k t <-> entry_t r k t)).
Proof.
  induction n as [|n IH]; intros i r r' er; cbn [correct_loop]; [discriminate|].
  destruct (correct_one cf rxns i r) as [r1|e] eqn:E.
  - intro H. destruct (IH _ _ _ _ H) as (j & J & E2 & X). exists j. split; [lia|]. split; auto.
    intros k t Hk. rewrite X by lia.
    unfold correct_one in E. destruct (rel_get r i) as [t0|]; cbn [bind] in E; [|discriminate].
    destruct (lindex rxns i) as [fls|]; cbn [bind] in E; [|discriminate].
    destruct (state_deltas cf fls) as [ds|]; cbn [bind] in E; [|discriminate].
    injection E as <-. apply rel_set_other. lia.
  - intro H. injection H as <- <-. exists i. split; [lia|]. split; auto. tauto.
Qed.

Lemma corrected_consistent ds a b c a' b' c' :
  corrected ds (a, b, c) (a', b', c') -> a - b = c -> a' - b' = c'.
Proof.
  intros H E. inversion H; subst.
  - unfold Rmax. repeat destruct (Rle_dec _ _); lra.
  - lra.
Qed.

Lemma corrected_no_ts d0 d1 t a b c :
  corrected [d0; d1] t (a, b, c) -> 0 <= a /\ 0 <= b /\ (a = 0 \/ b = 0) /\ a - b = c.
Proof.
  intro H. inversion H; subst. unfold Rmax. repeat destruct (Rle_dec _ _); lra.
Qed.

(** ** Stoichiometry *)
Lemma gas_formula_text sp n f :
  parse_formula (write_formula n sp None (L "g")) = Ok f -> f_text f = write_formula n sp None (L "g").
Proof.
  unfold parse_formula. destruct (search _ _); [|discriminate]. intro H. now injection H as <-.
Qed.

Lemma site_g : site_name (L "g").
Proof. split; [discriminate|reflexivity]. Qed.

(** The entropy method does not look at the number in front of the gas. *)
Lemma entropy_ignores_number rot vib o n sp : species_name sp ->
  entropy_correction rot vib o (write_formula (Some n) sp None (L "g"))
  = entropy_correction rot vib o (write_formula None sp None (L "g")).
Proof.
  intro H. unfold entropy_correction.
  rewrite !(formula_roundtrip _ _ _ _ H site_g). reflexivity.
Qed.

Lemma shomate_loop_none rows gas T : (forall r, In r rows -> sh_gas r <> gas) -> shomate_loop rows gas T = 0.
Proof.
  induction rows as [|r rows IH]; intro H; cbn; auto.
  rewrite (proj2 (str_eqb_neq (sh_gas r) gas) (H r (or_introl eq_refl))). cbn. apply IH.
  intros r' Hr. apply H. now right.
Qed.

(** The Shomate method finds no row for a gas written with a number. *)
Lemma dec_first_digit n : exists c t, dec n = c :: t /\ is_digit c = true.
Proof.
  pose proof (dec_digits n) as D. pose proof (dec_nonnil n) as N.
  destruct (dec n) as [|c t]; [congruence|]. exists c, t. split; auto. cbn in D.
  now apply andb_prop in D.
Qed.

Definition starts_with_digit (s : str) : bool :=
  match s with c :: _ => is_digit c | [] => false end.

Lemma shomate_numbered rows T n sp : species_name sp ->
  (forall r, In r rows -> starts_with_digit (sh_gas r) = false) ->
  shomate_correction rows T (write_formula (Some n) sp None (L "g")) = Ok 0.
Proof.
  intros H R. unfold shomate_correction. rewrite (formula_roundtrip _ _ _ _ H site_g). cbn [bind].
  unfold formula_type. cbn [f_site]. rewrite str_eqb_refl. f_equal. apply shomate_loop_none.
  intros r Hr E. specialize (R r Hr). rewrite E in R. unfold write_formula, number_text in R.
  destruct (dec_first_digit n) as (c & t & D & Dg). rewrite D in R. cbn in R. congruence.
Qed.

Lemma shomate_params_no_digit : forall r, In r shomate_params -> starts_with_digit (sh_gas r) = false.
Proof.
  apply Forall_forall. unfold shomate_params. repeat (apply Forall_cons; [reflexivity|]). constructor.
Qed.

(** Without numbers the correction of a state is the weighted sum. *)
Lemma change_unnumbered cf corr fs :
  Forall unnumbered (gases fs) ->
  (forall f, In f (gases fs) -> cf (f_species_site f) = Ok (corr (f_species_site f))) ->
  (forall f, In f fs -> f_site f <> L "g" -> cf (f_text f) = Ok 0) ->
  state_change cf fs (gas_sum corr fs).
Proof.
  unfold gases. induction fs as [|f fs IH]; cbn [filter gas_sum]; intros U C N.
  - exists []. split; [constructor|reflexivity].
  - destruct (str_eqb (f_site f) (L "g")) eqn:E.
    + inversion U as [|? ? [U1 U2] U']; subst. destruct IH as (cs & I1 & I2); auto.
      { intros g Hg. apply C. now right. } { intros g Hg. apply N. now right. }
      exists (corr (f_species_site f) :: cs). split.
      * constructor; auto. rewrite U1. apply C. now left.
      * cbn. rewrite U2. cbn. lra.
    + destruct IH as (cs & I1 & I2); auto. { intros g Hg. apply N. now right. }
      exists (0 :: cs). split.
      * constructor; auto. apply N; [now left|]. now apply str_eqb_neq.
      * cbn. lra.
Qed.

Lemma not_gas_type f : f_site f <> L "g" -> formula_type f <> Gas.
Proof.
  intros H G. apply H. apply is_gas_iff. unfold is_gas. now rewrite G.
Qed.

Lemma parse_text_formula s f : parse_formula s = Ok f -> f_text f = s.
Proof. unfold parse_formula. destruct (search _ _); [|discriminate]. intro H. now injection H as <-. Qed.

Lemma not_gas_zero_shomate rows T s f : parse_formula s = Ok f -> f_site f <> L "g" ->
  shomate_correction rows T s = Ok 0.
Proof.
  intros P H. unfold shomate_correction. rewrite P. cbn [bind].
  pose proof (not_gas_type f H). destruct (formula_type f); congruence.
Qed.
Lemma not_gas_zero_entropy rot vib o s f : parse_formula s = Ok f -> f_site f <> L "g" ->
  entropy_correction rot vib o s = Ok 0.
Proof.
  intros P H. unfold entropy_correction, free_energy. rewrite P. cbn [bind].
  pose proof (not_gas_type f H). destruct (formula_type f); congruence.
Qed.
