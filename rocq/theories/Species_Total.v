(** The total reaction equation (C13). *)
From Coq Require Import String Ascii List ZArith Bool Arith Lia.
Import ListNotations.
From Verif Require Import PyBase PyBaseFacts Regex RegexFacts Rxn_Model Rxn_Spec Rxn_Proofs Rxn_Count Rxn_More
  Species_Model Species_Spec Species_Proofs Species_Matrix.

Lemma names_known es p n : parse_rxns es = Ok p -> In n (l_gas p ++ l_liq p) -> known n.
Proof.
  intros H I. destruct (parse_rxns_facts es p H) as (M & _ & _ & _ & _ & _ & G & Q & _).
  apply in_app_or in I as [I|I]; [apply G in I|apply Q in I]; destruct I as (f & O & _ & ->);
    exists f; split; auto; eapply occurs_readable; eauto.
Qed.

Lemma keep_word b n c : known n -> Forall formula_word (keep b (n, c)).
Proof.
  intro K. unfold keep. destruct b; constructor; [|constructor]. cbn [fst snd].
  pose proof (known_chars n K) as Hn.
  destruct (coeff_text_digits (Z.abs c) ltac:(lia)) as [Hd _].
  assert (Ha : forallb is_species_char (coeff_text (Z.abs c) ++ n) = true).
  { rewrite forallb_app, Hn, andb_true_r. exact (forallb_impl is_digit is_species_char _ digit_species Hd). }
  set (t := coeff_text (Z.abs c) ++ n) in *.
  assert (Hne : t <> []).
  { intro E. unfold t in E. apply app_eq_nil in E as [_ ->].
    destruct K as (g & R & E2). destruct (readable_name g R) as (ms & E3 & _).
    rewrite E3 in E2. destruct (f_species g); discriminate. }
  rewrite forallb_forall in Ha.
  repeat split.
  - unfold nonblank. rewrite stripped_strip; auto. split.
    + destruct t as [|x t']; [exact I|]. cbn. apply species_not_space, Ha. now left.
    + destruct (rev t) as [|x t'] eqn:E; [exact I|]. cbn. apply species_not_space, Ha.
      apply in_rev. rewrite E. now left.
  - intro I. apply Ha in I. discriminate.
  - intro I. apply Ha in I. discriminate.
  - intro I. apply Ha in I. discriminate.
Qed.

Lemma word_stripped n b c w : known n -> In w (keep b (n, c)) -> strip w = w.
Proof.
  intros K I. unfold keep in I. destruct b; [|contradiction]. destruct I as [<-|[]]. cbn [fst snd].
  pose proof (known_chars n K) as Hn.
  destruct (coeff_text_digits (Z.abs c) ltac:(lia)) as [Hd _].
  assert (Ha : forallb is_species_char (coeff_text (Z.abs c) ++ n) = true).
  { rewrite forallb_app, Hn, andb_true_r. exact (forallb_impl is_digit is_species_char _ digit_species Hd). }
  rewrite forallb_forall in Ha. set (t := coeff_text (Z.abs c) ++ n) in *.
  apply stripped_strip. split.
  - destruct t as [|x t']; [exact I|]. cbn. apply species_not_space, Ha. now left.
  - destruct (rev t) as [|x t'] eqn:E; [exact I|]. cbn. apply species_not_space, Ha.
    apply in_rev. rewrite E. now left.
Qed.

(** The formulas read from one side. *)
Definition side_ok (sel : Z -> bool) (ncs : list (str * Z)) (fs : list formula) : Prop :=
  mapM parse_formula (flat_map (fun nc => keep (sel (snd nc)) nc) ncs) = Ok fs /\
  (forall n, total_of_species n fs
     = sum_Z (map (fun nc => if sel (snd nc) then if str_eqb (fst nc) n then Z.abs (snd nc) else 0 else 0)%Z ncs)) /\
  (forall x, total_atoms x fs
     = sum_Z (map (fun nc => if sel (snd nc) then Z.abs (snd nc) * name_atoms x (fst nc) else 0)%Z ncs)).

Lemma side_formulas sel ncs :
  Forall (fun nc => known (fst nc)) ncs -> exists fs, side_ok sel ncs fs.
Proof.
  induction ncs as [|[n c] ncs IH]; intro F.
  - exists []. repeat split; reflexivity.
  - inversion F as [|? ? K F']; subst. destruct (IH F') as (fs & E1 & E2 & E3).
    cbn [fst] in K. unfold side_ok. cbn [flat_map]. unfold keep at 1. cbn [fst snd].
    destruct (sel c) eqn:Es.
    + destruct (parse_coeff_name (Z.abs c) n K ltac:(lia)) as (f & P & S & N & A).
      exists (f :: fs). cbn [app mapM]. rewrite P. cbn [bind]. rewrite E1. cbn [bind].
      repeat split.
      * intro m. cbn [map fst snd sum_Z]. rewrite Es. unfold total_of_species in *. cbn [map sum_Z].
        rewrite E2, S, N. reflexivity.
      * intro x. cbn [map fst snd sum_Z]. rewrite Es. unfold total_atoms in *. cbn [map sum_Z].
        rewrite E3, S, A. reflexivity.
    + exists fs. cbn [app]. rewrite E1. repeat split.
      * intro m. cbn [map fst snd sum_Z]. rewrite Es, E2. reflexivity.
      * intro x. cbn [map fst snd sum_Z]. rewrite Es, E3. reflexivity.
Qed.

Lemma side_words sel ncs :
  Forall (fun nc => known (fst nc)) ncs ->
  Forall formula_word (flat_map (fun nc => keep (sel (snd nc)) nc) ncs) /\
  map strip (flat_map (fun nc => keep (sel (snd nc)) nc) ncs)
  = flat_map (fun nc => keep (sel (snd nc)) nc) ncs.
Proof.
  induction ncs as [|[n c] ncs IH]; intro F; [split; [constructor|reflexivity]|].
  inversion F as [|? ? K F']; subst. destruct (IH F') as [I1 I2]. cbn [fst] in K.
  cbn [flat_map snd]. split.
  - apply Forall_app. split; auto. now apply keep_word.
  - rewrite map_app, I2. f_equal. rewrite <- (map_id (keep _ _)) at 2. apply map_ext_in.
    intros w I. now apply (word_stripped n (sel c) c).
Qed.

Lemma side_state sel ncs fs :
  Forall (fun nc => known (fst nc)) ncs -> side_ok sel ncs fs ->
  flat_map (fun nc => keep (sel (snd nc)) nc) ncs <> [] ->
  let st := write_state (flat_map (fun nc => keep (sel (snd nc)) nc) ncs) in
  no_angle st /\ nonblank st /\ state_formulas (strip st) = Ok fs.
Proof.
  intros F (E & _) Hn st. destruct (side_words sel ncs F) as [W S].
  destruct (word_state_ok _ Hn W) as [A B]. repeat split; auto; try apply A.
  unfold state_formulas. rewrite state_split_strip. unfold st. rewrite state_split_write; auto.
  - now rewrite S.
  - eapply Forall_impl; [|exact W]. intros w (_ & _ & Hw). exact Hw.
Qed.

Lemma combine_fst {A B} (l : list A) (l' : list B) : length l' = length l -> map fst (combine l l') = l.
Proof.
  revert l'; induction l as [|x l IH]; intros [|y l']; cbn; try discriminate; auto.
  intro H. f_equal. apply IH. lia.
Qed.

Lemma weighted_combine w ns cs :
  length cs = length ns -> weighted w ns cs = sum_Z (map (fun nc => (w (fst nc) * snd nc)%Z) (combine ns cs)).
Proof.
  revert cs; induction ns as [|n ns IH]; intros [|c cs]; cbn; try discriminate; auto.
  intro H. rewrite IH by lia. reflexivity.
Qed.

Lemma sum_single ns cs k n c :
  NoDup ns -> length cs = length ns -> nth_error ns k = Some n -> nth_error cs k = Some c ->
  sum_Z (map (fun nc => if str_eqb (fst nc) n then snd nc else 0%Z) (combine ns cs)) = c.
Proof.
  revert cs k; induction ns as [|m ns IH]; intros [|d cs] [|k] N Hl H1 H2; cbn in *; try discriminate.
  - injection H1 as ->. injection H2 as ->. rewrite str_eqb_refl.
    inversion N as [|? ? Nin Nd]; subst.
    assert (Z0 : sum_Z (map (fun nc => if str_eqb (fst nc) n then snd nc else 0%Z) (combine ns cs)) = 0%Z).
    { assert (G : forall ncs : list (str * Z), (forall nc, In nc ncs -> fst nc <> n) ->
        sum_Z (map (fun nc => if str_eqb (fst nc) n then snd nc else 0%Z) ncs) = 0%Z).
      { clear. induction ncs as [|[a b] ncs IH]; intro H; cbn; auto.
        rewrite IH by (intros; apply H; now right).
        destruct (str_eqb_spec a n) as [E|]; auto. exfalso. apply (H (a, b)); auto. now left. }
      apply G. intros nc I E. apply Nin. rewrite <- E, <- (combine_fst ns cs) by lia. now apply in_map. }
    rewrite Z0. lia.
  - inversion N; subst. destruct (str_eqb_spec m n) as [->|].
    + exfalso. apply nth_error_In in H1. auto.
    + rewrite (IH cs k); auto.
Qed.

Lemma nth_error_ext {A} (l1 l2 : list A) : length l1 = length l2 ->
  (forall k, k < length l1 -> nth_error l1 k = nth_error l2 k) -> l1 = l2.
Proof.
  revert l2; induction l1 as [|x l1 IH]; intros [|y l2] Hl H; cbn in *; try discriminate; auto.
  pose proof (H 0 ltac:(lia)) as H0. cbn in H0. injection H0 as ->. f_equal.
  apply IH; [lia|]. intros k Hk. apply (H (S k)). lia.
Qed.

Lemma nth_error_firstn_lt {A} (l : list A) n k : k < n -> nth_error (firstn n l) k = nth_error l k.
Proof.
  revert l k; induction n as [|n IH]; intros l k Hk; [lia|].
  destruct l as [|x l]; [now destruct k|]. destruct k as [|k]; auto. cbn. apply IH. lia.
Qed.

Lemma total_lists_ok names pre coeffs :
  NoDup (pre ++ names) -> length (pre ++ names) <= length coeffs ->
  exists rp, total_lists names (pre ++ names) coeffs = Ok rp.
Proof.
  revert pre; induction names as [|n names IH]; intros pre N Hl; cbn [total_lists]; [eauto|].
  assert (Ei : index_of n (pre ++ n :: names) = Some (length pre)).
  { apply index_of_nth; auto. rewrite nth_error_app2 by lia. now rewrite Nat.sub_diag. }
  rewrite Ei. unfold lindex. destruct (nth_error coeffs (length pre)) as [c|] eqn:Ec; cbn [bind].
  - change (pre ++ n :: names) with (pre ++ [n] ++ names) in *. rewrite app_assoc in *.
    destruct (IH _ N Hl) as (rp & ->). cbn [bind]. destruct (c <? 0)%Z; eauto.
  - apply nth_error_None in Ec. rewrite app_length in Hl. cbn in Hl. lia.
Qed.

Lemma total_lists_short names pre coeffs :
  NoDup (pre ++ names) -> length coeffs < length (pre ++ names) -> length pre <= length coeffs ->
  total_lists names (pre ++ names) coeffs = Err IndexError.
Proof.
  revert pre; induction names as [|n names IH]; intros pre N Hl Hp; cbn [total_lists].
  - rewrite app_nil_r in Hl. lia.
  - assert (Ei : index_of n (pre ++ n :: names) = Some (length pre)).
    { apply index_of_nth; auto. rewrite nth_error_app2 by lia. now rewrite Nat.sub_diag. }
    rewrite Ei. unfold lindex. destruct (nth_error coeffs (length pre)) as [c|] eqn:Ec; cbn [bind]; [|reflexivity].
    change (pre ++ n :: names) with (pre ++ [n] ++ names) in *. rewrite app_assoc in *.
    rewrite IH; auto. rewrite app_length. cbn.
    assert (length pre < length coeffs) by (apply nth_error_Some; congruence). lia.
Qed.

Section Total.
  Variables (es : list str) (p : lists) (H : parse_rxns es = Ok p) (coeffs : list Z).
  Let names := l_gas p ++ l_liq p.

  Lemma total_short : length coeffs < length names -> total_rxn_equation p coeffs = Err IndexError.
  Proof.
    intro Hl. unfold total_rxn_equation.
    pose proof (total_lists_short names [] coeffs (reapro_columns_NoDup es p H) Hl ltac:(cbn; lia)) as E.
    cbn [app] in E. unfold names in E. rewrite E. reflexivity.
  Qed.

  Lemma total_two_sided :
    length names <= length coeffs ->
    (exists c, In c (firstn (length names) coeffs) /\ (0 <= c)%Z) ->
    (exists c, In c (firstn (length names) coeffs) /\ (c < 0)%Z) ->
    exists e reactants products,
      rxn_formula_list e = Ok [reactants; products] /\
      (forall k n c, nth_error names k = Some n -> nth_error coeffs k = Some c ->
         total_of_species n reactants = Z.max c 0 /\ total_of_species n products = Z.max (- c) 0) /\
      (forall x, (total_atoms x reactants - total_atoms x products)%Z
                 = weighted (name_atoms x) names (firstn (length names) coeffs)) /\
      (conserved [reactants; products] -> total_rxn_equation p coeffs = Ok e) /\
      (~ conserved [reactants; products] -> total_rxn_equation p coeffs = Err ValueError).
  Proof.
    intros Hl (c1 & I1 & S1) (c2 & I2 & S2).
    pose proof (reapro_columns_NoDup es p H) as N. fold names in N.
    destruct (total_lists_ok names [] coeffs N Hl) as ([r q] & E). cbn [app] in E.
    destruct (total_lists_zip names [] coeffs r q N E) as (cs & Hcs & Hk & Hr & Hq).
    assert (Ecs : firstn (length names) coeffs = cs).
    { apply nth_error_ext.
      - rewrite firstn_length. lia.
      - intros k Hk2. rewrite firstn_length in Hk2. rewrite nth_error_firstn_lt by lia.
        rewrite <- Hk by lia. reflexivity. }
    assert (F : Forall (fun nc => known (fst nc)) (combine names cs)).
    { apply Forall_forall. intros [n c] I. apply in_combine_l in I. now apply (names_known es p). }
    destruct (side_formulas (fun c => 0 <=? c)%Z _ F) as (fr & Fr).
    destruct (side_formulas (fun c => c <? 0)%Z _ F) as (fp & Fp).
    assert (Hex : forall (sel : Z -> bool) c, In c cs -> sel c = true ->
              flat_map (fun nc => keep (sel (snd nc)) nc) (combine names cs) <> []).
    { intros sel c I S. apply In_nth_error in I as (k & Ek).
      assert (Hlt : k < length names) by (rewrite <- Hcs; apply nth_error_Some; congruence).
      destruct (nth_error names k) as [n|] eqn:En; [|apply nth_error_None in En; lia].
      assert (Ic : In (n, c) (combine names cs)).
      { clear -Ek En. revert k cs Ek En. induction names as [|m ns IH]; intros [|k] [|d cs] Ek En; cbn in *; try discriminate.
        - injection Ek as ->. injection En as ->. now left.
        - right. eauto. }
      intro Z0. assert (Hin : In (coeff_text (Z.abs c) ++ n) (flat_map (fun nc => keep (sel (snd nc)) nc) (combine names cs))).
      { apply in_flat_map. exists (n, c). split; auto. unfold keep. cbn [snd fst]. rewrite S. now left. }
      rewrite Z0 in Hin. destruct Hin. }
    rewrite Ecs in *.
    assert (Nr : flat_map (fun nc => keep (0 <=? snd nc)%Z nc) (combine names cs) <> []).
    { apply (Hex (fun c => 0 <=? c)%Z c1); auto. lia. }
    assert (Nq : flat_map (fun nc => keep (snd nc <? 0)%Z nc) (combine names cs) <> []).
    { apply (Hex (fun c => c <? 0)%Z c2); auto. lia. }
    destruct (side_state (fun c => 0 <=? c)%Z _ fr F Fr Nr) as (A1 & B1 & P1).
    destruct (side_state (fun c => c <? 0)%Z _ fp F Fp Nq) as (A2 & B2 & P2).
    exists (write_rxn [write_state r; write_state q]), fr, fp.
    assert (T : rxn_tolist (write_rxn [write_state r; write_state q]) = Ok [strip (write_state r); strip (write_state q)]).
    { subst r q. apply (write_rxn_tolist [write_state _; write_state _]); [now left|repeat constructor; auto; try apply A1; try apply A2|repeat constructor; auto]. }
    assert (G : rxn_formula_list (write_rxn [write_state r; write_state q]) = Ok [fr; fp]).
    { unfold rxn_formula_list. rewrite T. cbn [bind mapM]. subst r q. rewrite P1. cbn [bind].
      rewrite P2. reflexivity. }
    split; [exact G|]. split; [|split].
    - intros k n c En Ec.
      assert (Ec' : nth_error cs k = Some c).
      { rewrite <- Hk; [exact Ec|]. apply nth_error_Some. congruence. }
      destruct Fr as (_ & Tr & _). destruct Fp as (_ & Tp & _). rewrite Tr, Tp. clear -N Hcs En Ec'.
      split.
      + transitivity (sum_Z (map (fun nc => if str_eqb (fst nc) n then snd nc else 0%Z)
                        (combine names (map (fun c => Z.max c 0) cs)))).
        * f_equal. clear -Hcs. revert cs Hcs. induction names as [|m ns IH]; intros [|d cs] Hcs; cbn in *; try discriminate; auto.
          rewrite IH by lia. f_equal. destruct (str_eqb m n), (Z.leb_spec 0 d); lia.
        * apply (sum_single names _ k); auto. now rewrite map_length. now apply (map_nth_error (fun c => Z.max c 0)).
      + transitivity (sum_Z (map (fun nc => if str_eqb (fst nc) n then snd nc else 0%Z)
                        (combine names (map (fun c => Z.max (-c) 0) cs)))).
        * f_equal. clear -Hcs. revert cs Hcs. induction names as [|m ns IH]; intros [|d cs] Hcs; cbn in *; try discriminate; auto.
          rewrite IH by lia. f_equal. destruct (str_eqb m n), (Z.ltb_spec d 0); lia.
        * apply (sum_single names _ k); auto. now rewrite map_length. now apply (map_nth_error (fun c => Z.max (-c) 0)).
    - intro x. destruct Fr as (_ & _ & Tr). destruct Fp as (_ & _ & Tp). rewrite Tr, Tp, weighted_combine by auto.
      generalize (combine names cs). clear. induction l as [|[n c] l IH]; cbn [map fst snd sum_Z]; auto.
      destruct (Z.leb_spec 0 c), (Z.ltb_spec c 0); lia.
    - destruct (check_exact _ _ G ltac:(discriminate)) as [C1 C2].
      unfold total_rxn_equation. fold names. rewrite E. cbn [bind fst snd].
      change (join (L " + ") r ++ L " -> " ++ join (L " + ") q) with (write_rxn [write_state r; write_state q]).
      split; intro C; [rewrite C1|rewrite C2]; auto.
  Qed.

  (** With all species on one side (or none at all) the other side is the empty
      text, which is not a formula. *)
  Lemma total_one_sided :
    length names <= length coeffs ->
    (forall c, In c (firstn (length names) coeffs) -> (0 <= c)%Z) \/
    (forall c, In c (firstn (length names) coeffs) -> (c < 0)%Z) ->
    total_rxn_equation p coeffs = Err ChemFormulaError.
  Proof.
    intros Hl HS.
    pose proof (reapro_columns_NoDup es p H) as N. fold names in N.
    destruct (total_lists_ok names [] coeffs N Hl) as ([r q] & E). cbn [app] in E.
    destruct (total_lists_zip names [] coeffs r q N E) as (cs & Hcs & Hk & Hr & Hq).
    assert (Ecs : firstn (length names) coeffs = cs).
    { apply nth_error_ext.
      - rewrite firstn_length. lia.
      - intros k Hk2. rewrite firstn_length in Hk2. rewrite nth_error_firstn_lt by lia.
        rewrite <- Hk by lia. reflexivity. }
    rewrite Ecs in HS.
    assert (F : Forall (fun nc => known (fst nc)) (combine names cs)).
    { apply Forall_forall. intros [n c] I. apply in_combine_l in I. now apply (names_known es p). }
    assert (Hempty : r = [] \/ q = []).
    { destruct HS as [S|S]; [right|left]; subst; apply flat_map_nil; intros [n c] I;
        apply in_combine_r in I; apply S in I; cbn [snd]; unfold keep.
      - now replace (c <? 0)%Z with false by lia.
      - now replace (0 <=? c)%Z with false by lia. }
    destruct (side_words (fun c => 0 <=? c)%Z _ F) as [Wr _]. cbv beta in Wr. rewrite <- Hr in Wr.
    destruct (side_words (fun c => c <? 0)%Z _ F) as [Wq _]. cbv beta in Wq. rewrite <- Hq in Wq.
    assert (A : forall ts, Forall formula_word ts -> no_angle (write_state ts)).
    { intros [|t ts] W; [split; intros []|]. now apply word_state_ok. }
    unfold total_rxn_equation. fold names. rewrite E. cbn [bind fst snd].
    assert (T : rxn_tolist (join (L " + ") r ++ L " -> " ++ join (L " + ") q)
                = Ok [strip (write_state r ++ L " "); strip (L " " ++ write_state q)]).
    { change (join (L " + ") r) with (write_state r). change (join (L " + ") q) with (write_state q).
      replace (write_state r ++ L " -> " ++ write_state q)
        with ((write_state r ++ L " ") ++ arrow_text Single ++ (L " " ++ write_state q))
        by (rewrite <- app_assoc; reflexivity).
      rewrite tolist2.
      - unfold nonempty_states. destruct (write_state r); reflexivity.
      - destruct (A r Wr). split; intro I; apply in_app_or in I as [I|I]; auto; vm_compute in I; intuition discriminate.
      - destruct (A q Wq). split; intro I; apply in_app_or in I as [I|I]; auto; vm_compute in I; intuition discriminate. }
    unfold rxn_check_conservation. rewrite T. cbn [bind lfirst tl conserve_all].
    rewrite strip_blank_l, strip_blank_r.
    assert (X : state_conserve (strip (write_state r)) (strip (write_state q)) = Err ChemFormulaError).
    { destruct Hempty as [->| ->].
      - reflexivity.
      - change (strip (write_state [])) with (@nil ascii). unfold state_conserve, state_elements.
        destruct (state_formulas (strip (write_state r))) as [fs|er] eqn:Er; cbn [bind].
        + reflexivity.
        + now rewrite (state_formulas_error _ _ Er). }
    rewrite X. reflexivity.
  Qed.

  (** Whatever is returned passed the check. *)
  Lemma total_checked e : total_rxn_equation p coeffs = Ok e -> rxn_check_conservation e = Ok true.
  Proof.
    unfold total_rxn_equation. destruct (total_lists _ _ _) as [rp|]; [|discriminate]. cbn [bind].
    generalize (join (L " + ") (fst rp) ++ L " -> " ++ join (L " + ") (snd rp)). intro t.
    destruct (rxn_check_conservation t) as [b|] eqn:C; cbn [bind]; [|discriminate].
    intro E. injection E as <-. destruct (check_outcomes t) as [O|[O|[O|[[O _]|[O _]]]]]; auto; congruence.
  Qed.

  Lemma total_balanced e :
    total_rxn_equation p coeffs = Ok e ->
    exists reactants products, rxn_formula_list e = Ok [reactants; products] /\
      balanced reactants products /\
      (forall k n c, nth_error names k = Some n -> nth_error coeffs k = Some c ->
         net_consumption n reactants products = c) /\
      (forall x, weighted (name_atoms x) names (firstn (length names) coeffs) = 0%Z).
  Proof.
    intros E. destruct (le_lt_dec (length names) (length coeffs)) as [Hl|Hl].
    2: { rewrite total_short in E by auto. discriminate. }
    destruct (Exists_dec (fun c => 0 <= c)%Z (firstn (length names) coeffs)) as [X1|X1].
    { intro c. destruct (Z_le_gt_dec 0 c); [left|right]; lia. }
    2: { rewrite total_one_sided in E; [discriminate|auto|]. right. intros c I.
         destruct (Z_lt_ge_dec c 0); auto. exfalso. apply X1, Exists_exists. exists c. split; auto. lia. }
    destruct (Exists_dec (fun c => c < 0)%Z (firstn (length names) coeffs)) as [X2|X2].
    { intro c. destruct (Z_lt_ge_dec c 0); [left|right]; lia. }
    2: { rewrite total_one_sided in E; [discriminate|auto|]. left. intros c I.
         destruct (Z_lt_ge_dec c 0); try lia. exfalso. apply X2, Exists_exists. exists c. split; auto. }
    apply Exists_exists in X1, X2.
    destruct (total_two_sided Hl X1 X2) as (e' & r & q & F & S & A & C1 & C2).
    destruct (check_parsed e' [r; q] F ltac:(discriminate)) as [[C _]|[C _]].
    - rewrite (C1 C) in E. injection E as <-.
      destruct (C r q ltac:(now left) ltac:(right; now left)) as [B _].
      exists r, q. repeat split; auto; try apply B.
      + intros k n c En Ec. destruct (S k n c En Ec) as [T1 T2]. unfold net_consumption. lia.
      + intro x. rewrite <- A. destruct B as [B _]. rewrite (B x). lia.
    - rewrite (C2 C) in E. discriminate.
  Qed.
End Total.
