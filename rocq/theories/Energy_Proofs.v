From Coq Require Import String Ascii List ZArith Bool Arith Reals Lra Lia.
Import ListNotations.
From Verif Require Import PyBase PyBaseFacts Rxn_Model Rxn_Spec Rxn_Proofs Rxn_Count Rxn_More
  PyReal Energy_Model Energy_Spec.
Open Scope list_scope.

Lemma name_for_fun f n1 n2 : name_for f n1 -> name_for f n2 -> n1 = n2.
Proof. intros H1 H2. destruct H1, H2; tauto || reflexivity. Qed.

Lemma model_name f :
  name_for f (if negb (has_char "*" (f_species_site f)) then f_species_site f
              else L "*_" ++ f_site f).
Proof.
  destruct (has_char "*" (f_species_site f)) eqn:E; cbn [negb].
  - constructor 2. now apply has_char_In.
  - constructor 1. unfold starred. rewrite <- has_char_In. congruence.
Qed.

Lemma tab_check ed f e :
  dget ed (if has_char "*" (f_species_site f) then L "*_" ++ f_site f else f_species_site f) = Some e ->
  tabulated ed f e.
Proof.
  intro H. eexists. split; [apply model_name|]. now destruct (has_char _ _).
Qed.

Lemma add_energies_ok ed fs : forall acc es,
  Forall2 (tabulated ed) fs es -> add_energies ed acc fs = Ok (acc + weigh fs es)%R.
Proof.
  induction fs as [|f fs IH]; intros acc es H; inversion H as [|? e ? es' He Hes]; subst.
  - cbn. f_equal. unfold weigh. cbn. lra.
  - cbn [add_energies]. destruct He as (n & Hn & Ed).
    rewrite (name_for_fun _ _ _ (model_name f) Hn). unfold dindex. rewrite Ed. cbn [bind].
    rewrite (IH _ es' Hes). f_equal. unfold weigh. cbn. lra.
Qed.

Lemma add_energies_err ed fs : forall acc,
  untabulated ed fs -> add_energies ed acc fs = Err KeyError.
Proof.
  induction fs as [|f fs IH]; intros acc (g & Hin & Hg); [destruct Hin|].
  cbn [add_energies]. unfold dindex.
  destruct (dget ed _) as [e|] eqn:E; cbn [bind]; auto.
  apply IH. destruct Hin as [<-|Hin].
  - exfalso. apply (Hg e). eexists. split; [apply model_name|exact E].
  - now exists g.
Qed.

Lemma table_cases ed fs : (exists es, Forall2 (tabulated ed) fs es) \/ untabulated ed fs.
Proof.
  induction fs as [|f fs [[es IH]|(g & Hin & Hg)]].
  - left. exists []. constructor.
  - destruct (dget ed (if negb (has_char "*" (f_species_site f)) then f_species_site f
              else L "*_" ++ f_site f)) as [e|] eqn:E.
    + left. exists (e :: es). constructor; auto. eexists. split; [apply model_name|exact E].
    + right. exists f. split; [now left|]. intros e (n & Hn & En).
      rewrite (name_for_fun _ _ _ Hn (model_name f)) in En. congruence.
  - right. exists g. split; auto. now right.
Qed.

Lemma state_energy_ok ed st fs e :
  state_formulas st = Ok fs -> energy_is ed fs e -> state_energy ed st = Ok e.
Proof.
  intros Hf (es & Hes & ->). unfold state_energy, state_species_site_dict, state_sites.
  rewrite Hf. cbn [bind]. rewrite (add_energies_ok _ _ _ _ Hes). f_equal. lra.
Qed.

Lemma state_energy_err ed st fs :
  state_formulas st = Ok fs -> untabulated ed fs -> state_energy ed st = Err KeyError.
Proof.
  intros Hf H. unfold state_energy, state_species_site_dict, state_sites.
  rewrite Hf. cbn [bind]. now apply add_energies_err.
Qed.

Lemma state_energy_bad ed st :
  (forall fs, state_formulas st <> Ok fs) -> state_energy ed st = Err ChemFormulaError.
Proof.
  intros Hf. unfold state_energy, state_species_site_dict.
  destruct (state_formulas st) as [fs|er] eqn:E; [congruence|].
  cbn [bind]. now apply state_formulas_error in E as ->.
Qed.

Lemma state_energy_iff ed st e :
  state_energy ed st = Ok e <-> exists fs, state_formulas st = Ok fs /\ energy_is ed fs e.
Proof.
  split.
  - intro H. destruct (state_formulas st) as [fs|er] eqn:E.
    + exists fs. split; auto. destruct (table_cases ed fs) as [[es Hes]|U].
      * exists es. split; auto.
        assert (X : state_energy ed st = Ok (weigh fs es)).
        { eapply state_energy_ok; eauto. now exists es. }
        congruence.
      * rewrite (state_energy_err _ _ _ E U) in H. discriminate.
    + rewrite state_energy_bad in H by congruence. discriminate.
  - intros (fs & E & H). eapply state_energy_ok; eauto.
Qed.

Lemma state_energy_error ed st er :
  state_energy ed st = Err er -> er = KeyError \/ er = ChemFormulaError.
Proof.
  intro H. destruct (state_formulas st) as [fs|?] eqn:E.
  - destruct (table_cases ed fs) as [[es Hes]|U].
    + rewrite (state_energy_ok ed st fs (weigh fs es)) in H; [discriminate|auto|now exists es].
    + rewrite (state_energy_err _ _ _ E U) in H. left. congruence.
  - rewrite state_energy_bad in H by congruence. right. congruence.
Qed.

Lemma single_no_abs ed e : single_relative false ed e = Err AttributeError.
Proof. reflexivity. Qed.

Lemma formula_list_tolist e fls :
  rxn_formula_list e = Ok fls -> exists sts, rxn_tolist e = Ok sts /\ Forall2 (fun s f => state_formulas s = Ok f) sts fls.
Proof.
  unfold rxn_formula_list. destruct (rxn_tolist e) as [sts|]; [|discriminate]. cbn [bind].
  intro H. exists sts. split; auto. now apply mapM_ok_iff.
Qed.

Lemma single_two ed e f0 f1 e0 e1 :
  rxn_formula_list e = Ok [f0; f1] -> energy_is ed f0 e0 -> energy_is ed f1 e1 ->
  single_relative true ed e = Ok (Rmax 0 (e1 - e0), Rmax 0 (e0 - e1), e1 - e0)%R.
Proof.
  intros H H0 H1. apply formula_list_tolist in H as (sts & E & F).
  inversion F as [|s0 ? ? ? S0 F1]; subst. inversion F1 as [|s1 ? ? ? S1 F2]; subst. inversion F2; subst.
  unfold single_relative. rewrite E. cbn [negb bind lfirst llast length Nat.eqb].
  rewrite (state_energy_ok _ _ _ _ S0 H0), (state_energy_ok _ _ _ _ S1 H1). cbn [bind].
  assert (A : (Rmax e0 e1 - e0 = Rmax 0 (e1 - e0))%R).
  { unfold Rmax. repeat destruct (Rle_dec _ _); lra. }
  assert (B : (Rmax e0 e1 - e1 = Rmax 0 (e0 - e1))%R).
  { unfold Rmax. repeat destruct (Rle_dec _ _); lra. }
  rewrite A, B. reflexivity.
Qed.

Lemma single_three ed e f0 f1 f2 e0 e1 e2 :
  rxn_formula_list e = Ok [f0; f1; f2] -> energy_is ed f0 e0 -> energy_is ed f1 e1 -> energy_is ed f2 e2 ->
  single_relative true ed e = Ok (e1 - e0, e1 - e2, e2 - e0)%R.
Proof.
  intros H H0 H1 H2. apply formula_list_tolist in H as (sts & E & F).
  inversion F as [|s0 ? ? ? S0 F1]; subst. inversion F1 as [|s1 ? ? ? S1 F2]; subst.
  inversion F2 as [|s2 ? ? ? S2 F3]; subst. inversion F3; subst.
  unfold single_relative, lindex. rewrite E. cbn [negb bind lfirst llast length Nat.eqb nth_error].
  rewrite (state_energy_ok _ _ _ _ S0 H0), (state_energy_ok _ _ _ _ S1 H1), (state_energy_ok _ _ _ _ S2 H2).
  reflexivity.
Qed.

Lemma single_missing ed e fls fs :
  rxn_formula_list e = Ok fls -> In fs fls -> untabulated ed fs -> 
  single_relative true ed e = Err KeyError.
Proof.
  intros H Hin U. apply formula_list_tolist in H as (sts & E & F).
  unfold single_relative, lindex. rewrite E. cbn [negb bind].
  destruct (tolist_states e sts E) as [_ Hlen].
  assert (D : forall s f, state_formulas s = Ok f ->
     (exists x, energy_is ed f x /\ state_energy ed s = Ok x) \/ state_energy ed s = Err KeyError).
  { intros s f Hs. destruct (table_cases ed f) as [[es Hes]|V].
    - left. exists (weigh f es). assert (W : energy_is ed f (weigh f es)) by now exists es.
      split; auto. eapply state_energy_ok; eauto.
    - right. eapply state_energy_err; eauto. }
  assert (N : forall s f x, state_formulas s = Ok f -> f = fs -> state_energy ed s <> Ok x).
  { intros s f x Hs ->. rewrite (state_energy_err _ _ _ Hs U). discriminate. }
  destruct fls as [|f0 [|f1 [|f2 [|? ?]]]].
  - destruct Hin.
  - inversion F as [|s0 ? ? ? S0 F1]; subst. inversion F1; subst.
    cbn [lfirst llast bind].
    destruct Hin as [->|[]]. rewrite (state_energy_err _ _ _ S0 U). reflexivity.
  - inversion F as [|s0 ? ? ? S0 F1]; subst. inversion F1 as [|s1 ? ? ? S1 F2]; subst. inversion F2; subst.
    cbn [lfirst llast bind length Nat.eqb].
    destruct (D _ _ S0) as [(x0 & _ & X0)|X0]; rewrite X0; cbn [bind]; auto.
    destruct (D _ _ S1) as [(x1 & _ & X1)|X1]; rewrite X1; cbn [bind]; auto.
    exfalso. destruct Hin as [I|[I|[]]]; [exact (N _ _ _ S0 I X0)|exact (N _ _ _ S1 I X1)].
  - inversion F as [|s0 ? ? ? S0 F1]; subst. inversion F1 as [|s1 ? ? ? S1 F2]; subst.
    inversion F2 as [|s2 ? ? ? S2 F3]; subst. inversion F3; subst.
    cbn [lfirst llast bind length Nat.eqb nth_error].
    destruct (D _ _ S0) as [(x0 & _ & X0)|X0]; rewrite X0; cbn [bind]; auto.
    destruct (D _ _ S2) as [(x2 & _ & X2)|X2]; rewrite X2; cbn [bind]; auto.
    destruct (D _ _ S1) as [(x1 & _ & X1)|X1]; rewrite X1; cbn [bind]; auto.
    exfalso. destruct Hin as [I|[I|[I|[]]]];
      [exact (N _ _ _ S0 I X0)|exact (N _ _ _ S1 I X1)|exact (N _ _ _ S2 I X2)].
  - exfalso. apply Forall2_length in F. cbn in F. lia.
Qed.

(** Whatever the reaction (also with one state only). *)
Lemma single_consistent ed e f r d :
  single_relative true ed e = Ok (f, r, d) -> (f - r = d)%R.
Proof.
  unfold single_relative. cbn [negb]. intro H.
  destruct (rxn_tolist e) as [sts|]; cbn [bind] in H; [|discriminate].
  destruct (lfirst sts) as [s0|]; cbn [bind] in H; [|discriminate].
  destruct (state_energy ed s0) as [x|]; cbn [bind] in H; [|discriminate].
  destruct (llast sts) as [s1|]; cbn [bind] in H; [|discriminate].
  destruct (state_energy ed s1) as [y|]; cbn [bind] in H; [|discriminate].
  match type of H with (do _ <- ?a; _) = _ => destruct a as [g|] end; cbn [bind] in H; [|discriminate].
  injection H as <- <- <-. lra.
Qed.

Lemma single_revert ed e e' f r d :
  rxn_revert e = Ok e' -> single_relative true ed e = Ok (f, r, d) ->
  single_relative true ed e' = Ok (r, f, (- d)%R).
Proof.
  intros Hr. destruct (revert_tolist e e' Hr) as (sts & E & Hl & E').
  unfold single_relative, lindex. rewrite E, E'. cbn [negb bind].
  rewrite lfirst_rev, llast_rev, rev_length.
  destruct sts as [|s0 [|s1 [|s2 [|? ?]]]]; try (exfalso; cbn in Hl; lia).
  - cbn [lfirst llast bind length Nat.eqb rev app nth_error].
    destruct (state_energy ed s0); cbn [bind]; [|discriminate].
    destruct (state_energy ed s1); cbn [bind]; [|discriminate].
    intro H. injection H as <- <- <-. rewrite Rmax_comm. repeat f_equal. lra.
  - cbn [lfirst llast bind length Nat.eqb rev app nth_error].
    destruct (state_energy ed s0); cbn [bind]; [|discriminate].
    destruct (state_energy ed s2); cbn [bind]; [|discriminate].
    destruct (state_energy ed s1); cbn [bind]; [|discriminate].
    intro H. injection H as <- <- <-. repeat f_equal. lra.
Qed.

Lemma revert_fails_too ed e e' er :
  rxn_revert e = Ok e' -> single_relative true ed e = Err er ->
  exists er', single_relative true ed e' = Err er'.
Proof.
  intros Hr H. destruct (single_relative true ed e') as [[[f r] d]|er'] eqn:E; eauto.
  exfalso. assert (T : exists sts, rxn_tolist e = Ok sts /\ two_or_three sts).
  { destruct (revert_tolist e e' Hr) as (sts & E1 & Hl & _). exists sts. auto. }
  destruct T as (sts & E1 & Hl).
  destruct (revert_full e sts E1 Hl) as (R1 & R2 & R3 & R4).
  assert (e' = write_rxn (rev sts)) by congruence. subst e'.
  pose proof (single_revert ed _ _ _ _ _ R3 E) as X.
  assert (Y : single_relative true ed (write_rxn sts) = single_relative true ed e).
  { unfold single_relative. rewrite R4, E1. reflexivity. }
  congruence.
Qed.

Lemma relative_from_absolute_ok b ed es r :
  relative_from_absolute b ed es = Ok r <->
  exists l, mapM (single_relative b ed) es = Ok l /\
    r = {| r_Gaf := map (fun t => fst (fst t)) l; r_Gar := map (fun t => snd (fst t)) l; r_dG := map snd l |}.
Proof.
  unfold relative_from_absolute. destruct (mapM _ es) as [l|]; cbn [bind]; split.
  - intro H; injection H as <-. eauto.
  - intros (l' & H & ->). injection H as <-. reflexivity.
  - discriminate.
  - intros (l' & H & _). discriminate.
Qed.

Lemma relative_from_absolute_entries b ed es r :
  relative_from_absolute b ed es = Ok r ->
  entries r (length es) /\
  forall i e gaf gar dg, nth_error es i = Some e -> 
    (entry r i gaf gar dg <-> single_relative b ed e = Ok (gaf, gar, dg)).
Proof.
  intro H. apply relative_from_absolute_ok in H as (l & H & ->).
  pose proof (mapM_length _ _ _ H) as Hl. split.
  - repeat split; cbn; now rewrite map_length.
  - intros i e gaf gar dg Hi. apply mapM_ok_iff in H.
    assert (X : exists t, nth_error l i = Some t /\ single_relative b ed e = Ok t).
    { clear Hl. revert i Hi. induction H as [|x y xs ys Hxy H IH]; intros [|i] Hi; try discriminate; cbn in Hi.
      - injection Hi as <-. eexists. split; [reflexivity|auto].
      - now apply IH. }
    destruct X as ([[t1 t2] t3] & Ht & Hs). unfold entry. cbn.
    rewrite !nth_error_map, Ht, Hs. cbn. split.
    + intros (A & B & C). congruence.
    + intro A. injection A as <- <- <-. auto.
Qed.

Lemma relative_from_absolute_err b ed es er :
  relative_from_absolute b ed es = Err er ->
  exists e, In e es /\ single_relative b ed e = Err er.
Proof.
  unfold relative_from_absolute.
  induction es as [|e es IH]; cbn [mapM bind]; [discriminate|].
  destruct (single_relative b ed e) as [t|x] eqn:E; cbn [bind].
  - destruct (mapM _ es); cbn [bind] in *; [discriminate|]. intro H. destruct (IH H) as (e' & I & X).
    exists e'. split; auto. now right.
  - intro H. injection H as ->. exists e. split; auto. now left.
Qed.

(** Relative energies given by the user. *)
Lemma combine_nth_error {A B} (la : list A) (lb : list B) i a b :
  nth_error la i = Some a -> nth_error lb i = Some b -> nth_error (combine la lb) i = Some (a, b).
Proof.
  revert lb i. induction la as [|x la IH]; intros [|y lb] [|i]; cbn; try discriminate.
  - congruence.
  - apply IH.
Qed.

Lemma map_snd_combine {A B} (la : list A) (lb : list B) :
  length la = length lb -> map snd (combine la lb) = lb.
Proof.
  revert lb. induction la as [|x la IH]; intros [|y lb]; cbn; try discriminate; auto.
  intro H. injection H as H. now rewrite IH.
Qed.

Lemma Rltb_true x y : Rltb x y = true <-> (x < y)%R.
Proof. unfold Rltb. destruct (Rlt_dec x y); split; intro; congruence || tauto. Qed.
Lemma Rltb_false x y : Rltb x y = false <-> (y <= x)%R.
Proof. unfold Rltb. destruct (Rlt_dec x y); split; intro; congruence || lra. Qed.
Lemma Rleb_true x y : Rleb x y = true <-> (x <= y)%R.
Proof. unfold Rleb. destruct (Rle_dec x y); split; intro; congruence || tauto. Qed.
Lemma Rleb_false x y : Rleb x y = false <-> (y < x)%R.
Proof. unfold Rleb. destruct (Rle_dec x y); split; intro; congruence || lra. Qed.
Lemma Reqb_true x y : Reqb x y = true <-> x = y.
Proof. unfold Reqb. destruct (Req_EM_T x y); split; intro; congruence || tauto. Qed.
Lemma Reqb_false x y : Reqb x y = false <-> x <> y.
Proof. unfold Reqb. destruct (Req_EM_T x y); split; intro; congruence || tauto. Qed.

(** Exact outcome of reading relative energies from a dictionary. *)
Lemma rel_outcome file setup n st ga dg d :
  (match file with Some f => Some f | None => setup end) = Some d ->
  d_Ga d = Some ga -> d_dG d = Some dg -> length ga = n -> length dg = n ->
  exists r, rel_parse_data file setup n st
    = ({| es_rel := Some r; es_has_rel := true; es_abs := es_abs st; es_has_abs := es_has_abs st |}, Ok tt) /\
    entries r n /\ r_dG r = dg /\
    forall i a x, nth_error ga i = Some a -> nth_error dg i = Some x ->
      ((Rabs a < 1e-10 /\ 0 < x)%R -> entry r i x 0 x) /\
      (~ (Rabs a < 1e-10 /\ 0 < x)%R -> entry r i a (a - x) x).
Proof.
  intros Hs Hga Hdg La Ld. unfold rel_parse_data. rewrite Hs.
  unfold check_rel_data, complete_rel_data, wrong_length. rewrite Hga, Hdg, La, Ld, Nat.eqb_refl. cbn [negb].
  eexists. split; [reflexivity|]. cbn [r_dG r_Gaf r_Gar].
  assert (M : map snd (combine ga dg) = dg) by (apply map_snd_combine; congruence).
  rewrite M. split; [|split; [reflexivity|]].
  - unfold entries. cbn. rewrite !map_length, !combine_length, map_length, combine_length. lia.
  - intros i a x Ha Hx. unfold entry. cbn [r_Gaf r_Gar r_dG].
    pose proof (combine_nth_error _ _ _ _ _ Ha Hx) as Hc.
    assert (Hg : nth_error (map correct_barrier (combine ga dg)) i = Some (correct_barrier (a, x))).
    { now rewrite nth_error_map, Hc. }
    rewrite Hg, nth_error_map, (combine_nth_error _ _ _ _ _ Hg Hx). cbn [option_map fst snd].
    unfold correct_barrier. cbn [fst snd]. rewrite Rminus_0_r. split.
    + intros [A B]. apply Rltb_true in A, B. rewrite A, B. cbn. repeat split; auto. f_equal. lra.
    + intro NAB. destruct (Rltb (Rabs a) _ && Rltb 0 x) eqn:E.
      * apply andb_prop in E as [A B]. apply Rltb_true in A, B. tauto.
      * auto.
Qed.

Lemma rel_error file setup n st er st' :
  rel_parse_data file setup n st = (st', Err er) -> st' = st.
Proof.
  unfold rel_parse_data. destruct file as [d|]; [|destruct setup as [d|]].
  1,2: destruct (check_rel_data d n); [destruct (complete_rel_data d)|]; congruence.
  congruence.
Qed.

Lemma rel_outcome_errors file setup n st :
  snd (rel_parse_data file setup n st) =
  match file, setup with
  | None, None => Err IOError
  | Some d, _ | None, Some d =>
      if wrong_length (d_Ga d) n || wrong_length (d_dG d) n then Err ValueError
      else match d_Ga d, d_dG d with Some _, Some _ => Ok tt | _, _ => Err KeyError end
  end.
Proof.
  unfold rel_parse_data, check_rel_data, complete_rel_data.
  destruct file as [d|]; [|destruct setup as [d|]]; auto.
  all: destruct (wrong_length (d_Ga d) n); cbn; auto.
  all: destruct (wrong_length (d_dG d) n); cbn; auto.
  all: destruct (d_Ga d), (d_dG d); auto.
Qed.

Lemma rel_rejection file setup n st d :
  (match file with Some f => Some f | None => setup end) = Some d ->
  ((exists l, (d_Ga d = Some l \/ d_dG d = Some l) /\ length l <> n) ->
     rel_parse_data file setup n st = (st, Err ValueError)) /\
  (d_Ga d = None -> (d_dG d = None \/ exists l, d_dG d = Some l /\ length l = n) ->
     rel_parse_data file setup n st = (st, Err KeyError)) /\
  ((exists l, d_Ga d = Some l /\ length l = n) -> d_dG d = None ->
     rel_parse_data file setup n st = (st, Err KeyError)).
Proof.
  intro Hs. unfold rel_parse_data. rewrite Hs. unfold check_rel_data, complete_rel_data, wrong_length.
  split; [|split].
  - intros (l & [E|E] & N); rewrite E; apply Nat.eqb_neq in N; rewrite N; cbn [negb]; auto.
    destruct (d_Ga d) as [g|]; auto. destruct (negb _); auto.
  - intros -> [->|(l & -> & <-)]; auto. now rewrite Nat.eqb_refl.
  - intros (l & -> & <-) ->. now rewrite Nat.eqb_refl.
Qed.

Lemma abs_outcome ed es st :
  let out := abs_parse_data (Some (Some ed)) es st in
  es_abs (fst out) = Some ed /\ es_has_abs (fst out) = true /\
  (forall r, snd out = Ok tt -> es_rel (fst out) = Some r ->
     relative_from_absolute true ed es = Ok r /\ es_has_rel (fst out) = true) /\
  (snd out = Ok tt -> exists r, es_rel (fst out) = Some r) /\
  (forall er, snd out = Err er ->
     es_rel (fst out) = es_rel st /\ es_has_rel (fst out) = es_has_rel st /\
     relative_from_absolute true ed es = Err er).
Proof.
  unfold abs_parse_data. cbn [es_has_abs].
  destruct (relative_from_absolute true ed es) as [r|er]; cbn; repeat split; try congruence; eauto.
Qed.

Lemma abs_error_stores : exists file es st st' er,
  abs_parse_data file es st = (st', Err er) /\
  es_has_abs st = false /\ es_has_abs st' = true /\ es_abs st' <> es_abs st.
Proof.
  exists (Some (Some [])), [L "CO_g + *_s -> CO_s"],
    {| es_rel := None; es_has_rel := false; es_abs := None; es_has_abs := false |}.
  do 2 eexists. split.
  - unfold abs_parse_data. cbn [es_has_abs].
    assert (E : relative_from_absolute true [] [L "CO_g + *_s -> CO_s"] = Err KeyError).
    { assert (F : exists f fs fss, rxn_formula_list (L "CO_g + *_s -> CO_s") = Ok ((f :: fs) :: fss)).
      { do 3 eexists. vm_compute. reflexivity. }
      destruct F as (f & fs & fss & F). unfold relative_from_absolute. cbn [mapM].
      rewrite (single_missing [] _ _ (f :: fs) F (or_introl eq_refl)); auto.
      exists f. split; [left; reflexivity|]. intros e (n & _ & X). discriminate. }
    rewrite E. reflexivity.
  - cbn. repeat split; auto. discriminate.
Qed.

Lemma double_site_energy : exists ed st fs,
  state_formulas st = Ok fs /\ total_sites (L "s") fs = 2%Z /\
  dget ed (L "*_s") = Some 1%R /\ state_energy ed st = Ok 1%R.
Proof.
  exists [(L "*_s", 1%R)], (L "*_2s"). eexists. split; [vm_compute; reflexivity|].
  split; [reflexivity|]. split; [reflexivity|].
  eapply state_energy_ok; [vm_compute; reflexivity|].
  exists [1%R]. split; [|unfold weigh; cbn; lra].
  constructor; [|constructor]. apply tab_check. reflexivity.
Qed.
