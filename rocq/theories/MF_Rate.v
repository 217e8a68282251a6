(** Proofs about rate expressions and the steady-state function (C27, C28). *)
From Coq Require Import String Ascii List ZArith NArith Bool Arith Reals Lia Lra.
Import ListNotations.
From Verif Require Import PyBase PyBaseFacts Rxn_Model Rxn_Spec Rxn_Proofs Species_Model Species_Spec
  Species_Proofs Species_Matrix PyReal Energy_Proofs Thermo_Model PyExpr_Model PyExpr_Proofs
  MF_Model MF_Spec MF_Cover.
Open Scope list_scope.

(** ** Characters *)
Definition no_nl (t : str) : Prop := forallb (fun c => negb (Ascii.eqb c (ascii_of_nat 10))) t = true.

Lemma no_nl_app a b : no_nl (a ++ b) <-> no_nl a /\ no_nl b.
Proof. unfold no_nl. rewrite forallb_app, andb_true_iff. tauto. Qed.
Lemma no_nl_not_In t : no_nl t -> ~ In (ascii_of_nat 10) t.
Proof. unfold no_nl. rewrite forallb_forall. intros H I. apply H in I. now rewrite Ascii.eqb_refl in I. Qed.
Lemma digit_no_nl c : is_digit c = true -> negb (Ascii.eqb c (ascii_of_nat 10)) = true.
Proof. all_ascii c. Qed.
Lemma no_nl_dec n : no_nl (dec n).
Proof. eapply forallb_impl; [apply digit_no_nl|apply dec_digits]. Qed.
Lemma species_no_nl c : is_species_char c = true -> negb (Ascii.eqb c (ascii_of_nat 10)) = true.
Proof. all_ascii c. Qed.
Lemma species_key c : is_species_char c = true -> key_char c = true.
Proof. all_ascii c. Qed.

Lemma str_of_nonneg n : (0 <= n)%Z -> str_of_Z n = dec (Z.to_N n).
Proof. destruct n; auto. lia. Qed.

Lemma readable_chars f : readable f -> forallb is_species_char (f_species_site f) = true.
Proof. intro R. apply known_chars. exists f. auto. Qed.

Lemma readable_stoich f : readable f -> (0 <= f_stoich f)%Z.
Proof.
  intros [t H]. apply parse_formula_inv in H as (b & ds & ms & a & _ & _ & _ & E & _ & D & _).
  rewrite E. unfold int_or_1. destruct ds; [lia|]. now apply int_of_nonneg.
Qed.

(** ** Data tables *)
Lemma data_loop_ok src names pre : NoDup (pre ++ names) ->
  (forall n, In n names -> exists x, dget src n = Some x) ->
  data_loop src names (tab (value src) pre) = Ok (tab (value src) (pre ++ names)).
Proof.
  revert pre; induction names as [|n ns IH]; intros pre N H; cbn [data_loop].
  - now rewrite app_nil_r.
  - destruct (H n (or_introl eq_refl)) as [x E]. unfold dindex. rewrite E. cbn [bind].
    rewrite dsetdefault_new.
    + replace (tab (value src) pre ++ [(n, x)]) with (tab (value src) (pre ++ [n])).
      * rewrite IH; [now rewrite <- app_assoc|now rewrite <- app_assoc|]. intros; apply H; now right.
      * rewrite tab_app. cbn. unfold value at 2. now rewrite E.
    + apply dget_tab_none. apply NoDup_remove_2 in N. intro I. apply N. apply in_or_app. auto.
Qed.

Lemma get_data_ok s : prepared s ->
  get_data s = Ok (tab (value (s_pressure s)) (l_gas (s_lists s)), tab (value (s_conc s)) (l_liq (s_lists s))).
Proof.
  intros (P & _ & G & Q). unfold get_data.
  destruct (NoDup_app_parts _ _ (reapro_columns_NoDup _ _ P)) as (N1 & N2 & _).
  change (@nil (str * R)) with (tab (value (s_pressure s)) []) at 1.
  rewrite (data_loop_ok (s_pressure s) (l_gas (s_lists s)) []) by auto. cbn [bind app].
  change (@nil (str * R)) with (tab (value (s_conc s)) []).
  rewrite (data_loop_ok (s_conc s) (l_liq (s_lists s)) []) by auto. reflexivity.
Qed.

(** ** Texts *)
Definition base_text (k : str) (idx : nat) : str := k ++ L "[" ++ dec (N.of_nat idx) ++ L "]".

Lemma list2string_eq k idx fs : list2string k idx fs = base_text k idx ++ concat (map factor_text fs).
Proof.
  unfold list2string, base_text. generalize (k ++ L "[" ++ dec (N.of_nat idx) ++ L "]"). induction fs as [|f fs IH]; intro t; cbn.
  - now rewrite app_nil_r.
  - rewrite IH. now rewrite <- app_assoc.
Qed.

(** Name of the table a formula is looked up in. *)
Definition table_name (f : formula) : str :=
  if str_eqb (f_site f) (L "g") then L "p" else if str_eqb (f_site f) (L "l") then L "c" else L "theta".

Definition clean (f : formula) : Prop := surface_site (f_site f) \/ ~ In ("*"%char) (f_species f).

Lemma factor_text_eq f : readable f -> clean f ->
  factor_text f = L "*" ++ table_name f ++ power_text (f_species_site f) (f_stoich f).
Proof.
  intros R C. unfold factor_text, table_name.
  destruct (has_char "*" (f_species_site f)) eqn:E.
  - destruct C as [[C1 C2]|C].
    + apply str_eqb_neq in C1, C2. rewrite C1, C2. reflexivity.
    + destruct (str_eqb_spec (f_site f) (L "g")) as [G|G];
        [|destruct (str_eqb_spec (f_site f) (L "l")) as [G2|G2]; [|reflexivity]].
      all: exfalso; apply has_char_In in E; destruct (readable_name f R) as (ms & En & _ & Dm & _);
        rewrite En in E; apply in_app_or in E as [E|[E|E]]; [now apply C|discriminate|];
        apply in_app_or in E as [E|E];
        [rewrite forallb_forall in Dm; apply Dm in E; discriminate|];
        rewrite ?G, ?G2 in E; destruct E as [E|[]]; discriminate.
  - unfold formula_type. destruct (str_eqb (f_site f) (L "g")); [reflexivity|].
    destruct (str_eqb (f_site f) (L "l")); [reflexivity|]. rewrite E. reflexivity.
Qed.

Lemma ident_table f : ident (table_name f).
Proof.
  unfold table_name. destruct (str_eqb (f_site f) (L "g")); [|destruct (str_eqb (f_site f) (L "l"))]; split; reflexivity.
Qed.

Section Texts.
  Variable s : setup.
  Hypothesis P : prepared s.
  Variables (cvgs : list R) (kf kr : list R).

  Let parsed : parse_rxns (s_exprs s) = Ok (s_lists s) := proj1 P.

  Definition the_env : env :=
    mf_env (tab (coverage s cvgs) (ads s ++ sites s))
           (tab (value (s_pressure s)) (l_gas (s_lists s)))
           (tab (value (s_conc s)) (l_liq (s_lists s))) kf kr.

  (** A formula with a value. *)
  Definition good (f : formula) : Prop :=
    readable f /\ clean f /\ env_key the_env (table_name f) (f_species_site f) = Ok (activity s cvgs f).

  Lemma usable_good rxn st f : In rxn (l_rxns (s_lists s)) -> In st rxn -> usable st -> In f st -> good f.
  Proof.
    intros Hr Hs [T C] Hf.
    destruct (formula_columns _ _ parsed rxn st f Hr Hs Hf) as (C1 & C2 & C3 & C4).
    assert (O : occurs f (l_rxns (s_lists s))) by (exists rxn, st; auto).
    destruct (parse_rxns_facts _ _ parsed) as (M & _ & _ & _ & _ & _ & G & Q & _).
    split; [now apply (occurs_readable _ _ f M)|]. split.
    - destruct (surface_dec (f_site f)) as [D|D]; [now left|right; auto].
    - unfold table_name, activity.
      destruct (str_eqb_spec (f_site f) (L "g")) as [E|E].
      + change (env_key the_env (L "p") (f_species_site f))
          with (dindex (tab (value (s_pressure s)) (l_gas (s_lists s))) (f_species_site f)).
        apply dindex_tab. apply G. exists f. auto.
      + destruct (str_eqb_spec (f_site f) (L "l")) as [E2|E2].
        * change (env_key the_env (L "c") (f_species_site f))
            with (dindex (tab (value (s_conc s)) (l_liq (s_lists s))) (f_species_site f)).
          apply dindex_tab. apply Q. exists f. auto.
        * assert (Sf : surface_site (f_site f)) by (split; auto).
          change (env_key the_env (L "theta") (f_species_site f))
            with (dindex (tab (coverage s cvgs) (ads s ++ sites s)) (f_species_site f)).
          apply dindex_tab. specialize (C4 Sf (T f Hf Sf)). apply in_app_or in C4. apply in_or_app. tauto.
  Qed.

  Lemma factor_val f : good f ->
    unary_val the_env (table_name f ++ power_text (f_species_site f) (f_stoich f))
      (activity s cvgs f ^ Z.to_nat (f_stoich f)).
  Proof.
    intros (R & C & E). unfold power_text.
    assert (A : atom_val the_env (table_name f ++ L "['" ++ f_species_site f ++ L "']") (activity s cvgs f)).
    { apply key_val; auto using ident_table.
      eapply forallb_impl; [apply species_key|now apply readable_chars]. }
    destruct (Z.eqb_spec (f_stoich f) 1) as [->|N].
    - rewrite app_nil_r. change (Z.to_nat 1) with 1. rewrite pow_1. now apply atom_unary.
    - pose proof (readable_stoich f R) as Hn. rewrite str_of_nonneg by auto.
      pose proof (pow_val the_env _ _ (dec (Z.to_N (f_stoich f))) A (dec_digits _) (dec_nonnil _)) as U.
      rewrite int_of_dec, Z2N.id in U by auto.
      rewrite <- ?app_assoc in U; rewrite <- ?app_assoc. exact U.
  Qed.

  Lemma state_val k idx fs x : (forall f, In f fs -> good f) -> prod_val the_env (base_text k idx) x ->
    prod_val the_env (list2string k idx fs) (mass_action s cvgs x fs).
  Proof.
    intros H B. rewrite list2string_eq.
    assert (G : forall t y, prod_val the_env t y ->
      exists z, prod_val the_env (t ++ concat (map factor_text fs)) (y * z) /\
                forall k, mass_action s cvgs k fs = (k * z)%R).
    { clear B. induction fs as [|f fs IH]; intros t y T; cbn [map concat mass_action].
      - exists 1%R. rewrite app_nil_r, Rmult_1_r. split; auto. intro. ring.
      - assert (Gf : good f) by (apply H; now left).
        pose proof (factor_val f Gf) as U. apply unary_prod in U.
        pose proof (mul_val the_env _ _ _ _ T U) as M.
        destruct (IH (fun g Hg => H g (or_intror Hg)) _ _ M) as (z & V & E).
        destruct Gf as (R & C & _). rewrite (factor_text_eq f R C).
        exists (activity s cvgs f ^ Z.to_nat (f_stoich f) * z)%R. split.
        + rewrite <- ?app_assoc in V; rewrite <- ?app_assoc. cbn [app] in V |- *.
          replace (y * (activity s cvgs f ^ Z.to_nat (f_stoich f) * z))%R
            with (y * activity s cvgs f ^ Z.to_nat (f_stoich f) * z)%R by ring. exact V.
        + intro k0. rewrite E. ring. }
    destruct (G _ _ B) as (z & V & E). now rewrite E.
  Qed.

  Lemma base_val k ks idx x : (k = L "kf" /\ ks = kf) \/ (k = L "kr" /\ ks = kr) -> nth_error ks idx = Some x ->
    prod_val the_env (base_text k idx) x.
  Proof.
    intros K H. apply atom_prod. unfold base_text. apply idx_val; auto using dec_digits, dec_nonnil.
    - destruct K as [[-> _]|[-> _]]; split; reflexivity.
    - rewrite int_of_dec. replace (Z.to_nat (Z.of_N (N.of_nat idx))) with idx by lia.
      destruct K as [[-> ->]|[-> ->]]; cbn; unfold lindex;
        replace (Z.to_nat (Z.of_N (N.of_nat idx))) with idx by lia; now rewrite H.
  Qed.

  Lemma no_nl_factor f : readable f -> clean f -> no_nl (factor_text f).
  Proof.
    intros R C. rewrite factor_text_eq by auto. apply no_nl_app. split; [reflexivity|]. apply no_nl_app. split.
    - unfold table_name. destruct (str_eqb (f_site f) (L "g")); [|destruct (str_eqb (f_site f) (L "l"))]; reflexivity.
    - unfold power_text. apply no_nl_app. split; [reflexivity|]. apply no_nl_app. split.
      + eapply forallb_impl; [apply species_no_nl|now apply readable_chars].
      + apply no_nl_app. split; [reflexivity|]. destruct (Z.eqb (f_stoich f) 1); [reflexivity|].
        apply no_nl_app. split; [reflexivity|]. rewrite str_of_nonneg by now apply readable_stoich.
        apply no_nl_dec.
  Qed.

  Lemma no_nl_list2string k idx fs : no_nl k -> (forall f, In f fs -> good f) -> no_nl (list2string k idx fs).
  Proof.
    intros K H. rewrite list2string_eq. apply no_nl_app. split.
    - unfold base_text. repeat (apply no_nl_app; split; auto); try reflexivity. apply no_nl_dec.
    - induction fs as [|f fs IH]; [reflexivity|]. cbn. apply no_nl_app. split.
      + destruct (H f (or_introl eq_refl)) as (R & C & _). now apply no_nl_factor.
      + apply IH. intros; apply H; now right.
  Qed.

  (** ** Numbered assignment lines *)
  Fixpoint number_lines (target : str) (i : nat) (texts : list str) : list str :=
    match texts with
    | [] => []
    | t :: r => (target ++ L "[" ++ dec (N.of_nat i) ++ L "] = " ++ t) :: number_lines target (S i) r
    end.

  Lemma assign_index_mid pre x rest y : assign_index (pre ++ x :: rest) (length pre) y = Ok (pre ++ y :: rest).
  Proof. induction pre as [|a pre IH]; cbn; auto. now rewrite IH. Qed.

  Lemma exec_numbered v target texts xs : ident target -> Forall2 (sum_val v) texts xs ->
    forall pre, exec_lines v target (pre ++ repeat 0%R (length xs)) (number_lines target (length pre) texts)
                = Ok (pre ++ xs).
  Proof.
    intro I. induction 1 as [|t x texts xs H F IH]; intro pre; cbn [number_lines exec_lines length repeat].
    - reflexivity.
    - rewrite (exec_line_val v target _ (dec (N.of_nat (length pre))) t x) by (auto using dec_digits, dec_nonnil).
      rewrite int_of_dec. replace (Z.to_nat (Z.of_N (N.of_nat (length pre)))) with (length pre) by lia.
      rewrite assign_index_mid. cbn [bind].
      specialize (IH (pre ++ [x])). rewrite app_length in IH. cbn [length] in IH.
      rewrite Nat.add_1_r in IH. rewrite <- !app_assoc in IH. exact IH.
  Qed.

  Lemma numbered_no_nl target i texts : no_nl target -> Forall no_nl texts ->
    Forall no_nl (number_lines target i texts).
  Proof.
    intros T F. revert i. induction F as [|t r H F IH]; intro i; cbn; constructor; auto.
    repeat (apply no_nl_app; split; auto); try reflexivity. apply no_nl_dec.
  Qed.

  Lemma exec_text_numbered v target texts xs : ident target -> no_nl target -> Forall no_nl texts ->
    Forall2 (sum_val v) texts xs ->
    exec_text v target (repeat 0%R (length xs)) (join newline (number_lines target 0 texts)) = Ok xs.
  Proof.
    intros I N F V. unfold exec_text, newline. destruct texts as [|t r].
    - inversion V; subst. reflexivity.
    - rewrite split_on_join.
      + apply (exec_numbered v target (t :: r) xs I V []).
      + discriminate.
      + eapply Forall_impl; [|apply numbered_no_nl; eauto]. intros a. apply no_nl_not_In.
  Qed.
End Texts.

(** ** C27 *)
Lemma index_first l e : In e l -> exists j, index_of e l = Some j /\ first_position l e j.
Proof.
  induction l as [|x l IH]; intro H; [destruct H|]. cbn [index_of].
  destruct (str_eqb_spec e x) as [->|N].
  - exists 0. split; auto. split; auto. intros k Hk. lia.
  - destruct IH as (j & -> & E1 & E2); [destruct H; [congruence|auto]|].
    exists (S j). split; auto. split; auto. intros [|k] Hk; cbn; [congruence|]. apply E2. lia.
Qed.

Lemma first_position_unique {A} (l : list A) x i j : first_position l x i -> first_position l x j -> i = j.
Proof.
  intros [A1 A2] [B1 B2]. destruct (Nat.lt_trichotomy i j) as [H|[H|H]]; auto.
  - exfalso. now apply (B2 i).
  - exfalso. now apply (A2 j).
Qed.

Lemma Forall2_at {A B} (R : A -> B -> Prop) l l' j x : Forall2 R l l' -> nth_error l j = Some x ->
  exists y, nth_error l' j = Some y /\ R x y.
Proof.
  intro M. revert j. induction M as [|a b l l' Hab M IH]; intros [|j] H; try discriminate; cbn in *; auto.
  injection H as ->. eauto.
Qed.

Section Rates.
  Variable s : setup.
  Hypothesis U : usable_setup s.
  Variables (cvgs : list R) (kf kr : list R).
  Hypothesis Len : length cvgs = length (ads s).
  Hypothesis Lf : length kf = length (s_exprs s).
  Hypothesis Lr : length kr = length (s_exprs s).

  Let P : prepared s := proj1 U.
  Let v := the_env s cvgs kf kr.

  (** What a reaction contributes: the texts and their values. *)
  Definition rxn_rates (e : str) (rf rr : R) : Prop :=
    forall j fls first last a b,
      first_position (s_exprs s) e j -> rxn_formula_list e = Ok fls ->
      lfirst fls = Ok first -> llast fls = Ok last ->
      nth_error kf j = Some a -> nth_error kr j = Some b ->
      rf = mass_action s cvgs a first /\ rr = mass_action s cvgs b last.

  Lemma formula_list_at j e : nth_error (s_exprs s) j = Some e ->
    exists fls, nth_error (l_rxns (s_lists s)) j = Some fls /\ rxn_formula_list e = Ok fls.
  Proof.
    destruct (parse_rxns_facts _ _ (proj1 P)) as (M & _). apply mapM_ok_iff in M. intro H.
    exact (Forall2_at _ _ _ j e M H).
  Qed.

  Lemma rate_expression_ok e : In e (s_exprs s) ->
    exists j fls first last a b,
      first_position (s_exprs s) e j /\ rxn_formula_list e = Ok fls /\
      lfirst fls = Ok first /\ llast fls = Ok last /\
      nth_error kf j = Some a /\ nth_error kr j = Some b /\
      (forall f, In f first -> good s cvgs kf kr f) /\ (forall f, In f last -> good s cvgs kf kr f) /\
      rate_expression s e = Ok (list2string (L "kf") j first, list2string (L "kr") j last) /\
      prod_val v (list2string (L "kf") j first) (mass_action s cvgs a first) /\
      prod_val v (list2string (L "kr") j last) (mass_action s cvgs b last) /\
      no_nl (list2string (L "kf") j first) /\ no_nl (list2string (L "kr") j last).
  Proof.
    intro He. destruct (index_first _ _ He) as (j & Ej & Fj).
    destruct (formula_list_at j e (proj1 Fj)) as (fls & En & Ef).
    assert (Hr : In fls (l_rxns (s_lists s))) by (eapply nth_error_In; eauto).
    destruct (parse_rxns_rxn _ _ _ (proj1 P) Hr) as (_ & _ & _ & _ & Nn).
    destruct (lfirst_ok fls Nn) as [first E1]. destruct (llast_ok fls Nn) as [last E2].
    assert (Hj : j < length (s_exprs s)) by (apply nth_error_Some; destruct Fj; congruence).
    destruct (nth_error kf j) as [a|] eqn:Ea; [|apply nth_error_None in Ea; lia].
    destruct (nth_error kr j) as [b|] eqn:Eb; [|apply nth_error_None in Eb; lia].
    destruct (proj2 U fls Hr first last E1 E2) as [U1 U2].
    assert (G1 : forall f, In f first -> good s cvgs kf kr f).
    { intros f Hf. apply (usable_good s P cvgs kf kr fls first f); auto. now apply lfirst_In. }
    assert (G2 : forall f, In f last -> good s cvgs kf kr f).
    { intros f Hf. apply (usable_good s P cvgs kf kr fls last f); auto. now apply llast_In. }
    exists j, fls, first, last, a, b. do 8 (split; [assumption|]). split.
    { unfold rate_expression. rewrite Ej. unfold lindex. rewrite En. cbn [bind]. rewrite E1, E2. reflexivity. }
    split; [apply state_val; auto; apply (base_val s cvgs kf kr (L "kf") kf); auto|].
    split; [apply state_val; auto; apply (base_val s cvgs kf kr (L "kr") kr); auto|].
    split; apply (no_nl_list2string s cvgs kf kr); auto; reflexivity.
  Qed.

  Lemma rate_lines_ok es : (forall e, In e es -> In e (s_exprs s)) -> forall i,
    exists ft rt fx rx,
      rate_lines s i es = Ok (number_lines (L "rfs") i ft, number_lines (L "rrs") i rt) /\
      Forall no_nl ft /\ Forall no_nl rt /\ Forall2 (sum_val v) ft fx /\ Forall2 (sum_val v) rt rx /\
      Forall2 (fun e p => rxn_rates e (fst p) (snd p)) es (combine fx rx) /\
      length fx = length es /\ length rx = length es.
  Proof.
    induction es as [|e es IH]; intros H i; cbn [rate_lines].
    - exists [], [], [], []. repeat (split; [constructor|]). auto.
    - destruct (rate_expression_ok e (H e (or_introl eq_refl)))
        as (j & fls & first & last & a & b & Fj & Ef & E1 & E2 & Ea & Eb & G1 & G2 & Er & V1 & V2 & N1 & N2).
      rewrite Er. cbn [bind].
      destruct (IH (fun x Hx => H x (or_intror Hx)) (S i)) as (ft & rt & fx & rx & E & A1 & A2 & A3 & A4 & A5 & A6 & A7).
      rewrite E. cbn [bind].
      exists (list2string (L "kf") j first :: ft), (list2string (L "kr") j last :: rt),
             (mass_action s cvgs a first :: fx), (mass_action s cvgs b last :: rx).
      split; [reflexivity|]. split; [now constructor|]. split; [now constructor|].
      split; [constructor; auto; now apply prod_sum|]. split; [constructor; auto; now apply prod_sum|].
      split; [|cbn; auto]. cbn [combine]. constructor; auto. cbn [fst snd].
      intros j' fls' first' last' a' b' Fj' Ef' E1' E2' Ea' Eb'.
      assert (j' = j) by (eapply first_position_unique; eauto). subst j'.
      assert (fls' = fls) by congruence. subst. assert (first' = first) by congruence.
      assert (last' = last) by congruence. assert (a' = a) by congruence. assert (b' = b) by congruence.
      subst. auto.
  Qed.

  Lemma num_rxns : length (l_rxns (s_lists s)) = length (s_exprs s).
  Proof. destruct (parse_rxns_facts _ _ (proj1 P)) as (M & _). now apply mapM_length in M. Qed.

  Lemma rates_ok : exists data rfs rrs,
    get_data s = Ok data /\ rates s (Ok (kf, kr)) (Some data) cvgs = Ok (rfs, rrs) /\
    length rfs = length (s_exprs s) /\ length rrs = length (s_exprs s) /\
    Forall2 (fun e p => rxn_rates e (fst p) (snd p)) (s_exprs s) (combine rfs rrs).
  Proof.
    destruct (rate_lines_ok (s_exprs s) (fun e H => H) 0) as (ft & rt & fx & rx & E & N1 & N2 & V1 & V2 & F & L1 & L2).
    eexists. exists fx, rx. split; [apply get_data_ok; exact P|].
    split; [|auto]. unfold rates. rewrite (classify_ok s P). cbn [bind].
    rewrite (tuple2dict_ok s P cvgs Len). cbn [bind]. rewrite E. cbn [bind].
    change (mf_env (tab (coverage s cvgs) (ads s ++ sites s)) (tab (value (s_pressure s)) (l_gas (s_lists s)))
             (tab (value (s_conc s)) (l_liq (s_lists s))) kf kr) with v.
    rewrite num_rxns. rewrite <- L1 at 1. rewrite exec_text_numbered; auto; try (split; reflexivity); try reflexivity.
    cbn [bind]. rewrite <- L2. rewrite exec_text_numbered; auto; try (split; reflexivity); reflexivity.
  Qed.

  (** ** C28 *)
  Lemma times_val n t x : (0 <= n)%Z -> prod_val v t x -> prod_val v (times_text n t) (IZR n * x).
  Proof.
    intros Hn V. unfold times_text. destruct (Z.eqb_spec n 1) as [->|].
    - now rewrite Rmult_1_l.
    - rewrite str_of_nonneg by auto. apply mul_val; auto. apply atom_prod.
      pose proof (dec_val v (Z.to_N n)) as D. now rewrite Z2N.id in D by auto.
  Qed.

  Lemma no_nl_times n t : (0 <= n)%Z -> no_nl t -> no_nl (times_text n t).
  Proof.
    intros Hn V. unfold times_text. destruct (Z.eqb n 1); auto. rewrite str_of_nonneg by auto.
    apply no_nl_app. split; [apply no_nl_dec|]. apply no_nl_app. split; [reflexivity|auto].
  Qed.

  Lemma find_in_state_spec name fs :
    match find_in_state name fs with
    | Some n => exists before f after, fs = before ++ f :: after /\ f_species_site f = name /\ f_stoich f = n /\
                  forall g, In g before -> f_species_site g <> name
    | None => forall g, In g fs -> f_species_site g <> name
    end.
  Proof.
    induction fs as [|f fs IH]; cbn [find_in_state]; [intros g []|].
    destruct (str_eqb_spec (f_species_site f) name) as [E|E].
    - exists [], f, fs. repeat split; auto.
    - destruct (find_in_state name fs).
      + destruct IH as (b & g & a & -> & H1 & H2 & H3). exists (f :: b), g, a. repeat split; auto.
        intros h [<-|Hh]; auto.
      + intros g [<-|Hg]; auto.
  Qed.

  Lemma find_in_states_spec name fls k :
    match find_in_states name k fls with
    | Some (i, n) => exists i', i = k + i' /\ met_first name fls i' n
    | None => absent name fls
    end.
  Proof.
    revert k; induction fls as [|fs fls IH]; intro k; cbn [find_in_states].
    - intros st g [].
    - pose proof (find_in_state_spec name fs) as F. destruct (find_in_state name fs) as [n|].
      + destruct F as (b & f & a & E & H1 & H2 & H3). exists 0. split; [lia|].
        exists fs, b, f, a. repeat split; auto. intros k0 st' Hk. lia.
      + specialize (IH (S k)). destruct (find_in_states name (S k) fls) as [[i n]|].
        * destruct IH as (i' & -> & st & b & f & a & H1 & H2 & H3 & H4 & H5 & H6). exists (S i'). split; [lia|].
          exists st, b, f, a. repeat split; auto. intros [|k0] st' Hk Hn; cbn in Hn.
          -- injection Hn as <-. exact F.
          -- apply (H6 k0); auto. lia.
        * intros st g [<-|Hs] Hg; auto. now apply (IH st).
  Qed.

  (** The two products of one reaction, with their values. *)
  Record pair_text := { p_inc : str; p_dec : str; p_iv : R; p_dv : R }.
  Definition pair_ok (q : pair_text) : Prop :=
    prod_val v (p_inc q) (p_iv q) /\ prod_val v (p_dec q) (p_dv q) /\ no_nl (p_inc q) /\ no_nl (p_dec q).
  Definition pair_str (q : pair_text) : str := p_inc q ++ L " - " ++ p_dec q.

  Lemma join_plus x l : join (L " + ") (x :: l) = x ++ concat (map (fun y => L " + " ++ y) l).
  Proof.
    revert x; induction l as [|y l IH]; intro x.
    - cbn. now rewrite app_nil_r.
    - change (join (L " + ") (x :: y :: l)) with (x ++ L " + " ++ join (L " + ") (y :: l)).
      rewrite IH. cbn [map concat]. now rewrite <- app_assoc.
  Qed.

  Lemma pairs_val qs : qs <> [] -> Forall pair_ok qs ->
    sum_val v (join (L " + ") (map pair_str qs)) (Rsum (map (fun q => p_iv q - p_dv q)%R qs)) /\
    no_nl (join (L " + ") (map pair_str qs)).
  Proof.
    destruct qs as [|q qs]; [congruence|]. intros _ F. inversion F as [|? ? Hq F']; subst.
    cbn [map]. rewrite join_plus.
    assert (G : forall t x, sum_val v t x -> no_nl t ->
      sum_val v (t ++ concat (map (fun y => L " + " ++ y) (map pair_str qs)))
        (x + Rsum (map (fun q => p_iv q - p_dv q)%R qs)) /\
      no_nl (t ++ concat (map (fun y => L " + " ++ y) (map pair_str qs)))).
    { clear Hq F. induction F' as [|r qs Hr F' IH]; intros t x T N; cbn [map concat Rsum].
      - rewrite app_nil_r, Rplus_0_r. auto.
      - destruct Hr as (I & D & NI & ND).
        pose proof (add_val v _ _ _ _ T I) as A. pose proof (sub_val v _ _ _ _ A D) as B.
        assert (NB : no_nl ((t ++ L " + " ++ p_inc r) ++ L " - " ++ p_dec r)).
        { apply no_nl_app. split; [apply no_nl_app; split; auto; apply no_nl_app; split; auto; reflexivity|].
          apply no_nl_app; split; auto; reflexivity. }
        destruct (IH _ _ B NB) as [V W]. unfold pair_str at 1 3. rewrite <- ?app_assoc in V; rewrite <- ?app_assoc in W; rewrite <- ?app_assoc.
        split; auto.
        replace (x + (p_iv r - p_dv r + Rsum (map (fun q => p_iv q - p_dv q) qs)))%R
          with (x + p_iv r - p_dv r + Rsum (map (fun q => p_iv q - p_dv q) qs))%R by ring. exact V. }
    destruct Hq as (I & D & NI & ND). cbn [Rsum]. apply G.
    - unfold pair_str. apply sub_val; auto. now apply prod_sum.
    - unfold pair_str. apply no_nl_app; split; [auto|]. apply no_nl_app; split; [reflexivity|auto].
  Qed.

  Lemma met_first_stoich e fls name i n : rxn_formula_list e = Ok fls -> met_first name fls i n -> (0 <= n)%Z.
  Proof.
    intros E (st & b & f & a & H1 & H2 & H3 & <- & _). apply readable_stoich.
    apply (rxn_formula_list_readable e fls st f); auto.
    - eapply nth_error_In; eauto.
    - rewrite H2. apply in_or_app. right. now left.
  Qed.

  Definition reaction_change (name e : str) (x : R) : Prop :=
    forall fls rf rr, rxn_formula_list e = Ok fls -> rxn_rates e rf rr -> counted_change name fls rf rr x.

  Lemma concat_nonempty e fls : In e (s_exprs s) -> rxn_formula_list e = Ok fls -> concat fls <> [].
  Proof.
    intros He E. destruct (In_nth_error _ _ He) as [j Hj].
    destruct (formula_list_at j e Hj) as (fls' & En & Ef). assert (fls' = fls) by congruence. subst.
    assert (Hr : In fls (l_rxns (s_lists s))) by (eapply nth_error_In; eauto).
    destruct (parse_rxns_rxn _ _ _ (proj1 P) Hr) as (_ & _ & _ & _ & Nn).
    unfold rxn_formula_list in E. destruct (rxn_tolist e) as [sts|]; cbn [bind] in E; [|discriminate].
    apply mapM_ok_iff in E. destruct E as [|x y l l' Hxy E]; [congruence|].
    unfold state_formulas in Hxy. apply mapM_length in Hxy. unfold state_split in Hxy. rewrite map_length in Hxy.
    destruct y as [|f y]; cbn; [|discriminate]. destruct (split_on "+" x) eqn:Es; [now apply split_on_nonnil in Es|discriminate].
  Qed.

  Lemma elementary_ok name e : In name (ads s) -> In e (s_exprs s) ->
    exists o, elementary_dtheta_dt s name e = Ok (option_map pair_str o) /\
      match o with
      | None => reaction_change name e 0 /\ (forall fls, rxn_formula_list e = Ok fls -> absent name fls)
      | Some q => pair_ok q /\ reaction_change name e (p_iv q - p_dv q)%R
      end.
  Proof.
    intros Hn He. unfold elementary_dtheta_dt.
    assert (str_mem name (l_ads (s_lists s)) = true) as -> by now apply str_mem_In. cbn [negb].
    destruct (rate_expression_ok e He)
        as (j & fls & first & last & a & b & Fj & Ef & E1 & E2 & Ea & Eb & G1 & G2 & Er & V1 & V2 & N1 & N2).
    rewrite Ef. cbn [bind]. destruct (concat fls) eqn:Ec; [now apply (concat_nonempty e fls He Ef) in Ec|].
    clear Ec l. pose proof (find_in_states_spec name fls 0) as F.
    assert (RR : forall rf rr, rxn_rates e rf rr -> rf = mass_action s cvgs a first /\ rr = mass_action s cvgs b last).
    { intros rf rr H. eapply H; eauto. }
    destruct (find_in_states name 0 fls) as [[i n]|].
    - destruct F as (i' & -> & M). cbn [Nat.add]. pose proof (met_first_stoich e fls name i' n Ef M) as Hz.
      rewrite Er. cbn [bind]. destruct i' as [|i'].
      + exists (Some {| p_inc := times_text n (list2string (L "kr") j last);
                        p_dec := times_text n (list2string (L "kf") j first);
                        p_iv := IZR n * mass_action s cvgs b last;
                        p_dv := IZR n * mass_action s cvgs a first |}).
        split; [reflexivity|]. split.
        * unfold pair_ok; cbn [p_inc p_dec p_iv p_dv].
          split; [apply times_val; assumption|]. split; [apply times_val; assumption|].
          split; apply no_nl_times; assumption.
        * intros fls' rf rr Ef' R. assert (fls' = fls) by congruence. subst. destruct (RR rf rr R) as [-> ->].
          right. left. exists n. split; auto. cbn. ring.
      + exists (Some {| p_inc := times_text n (list2string (L "kf") j first);
                        p_dec := times_text n (list2string (L "kr") j last);
                        p_iv := IZR n * mass_action s cvgs a first;
                        p_dv := IZR n * mass_action s cvgs b last |}).
        split; [reflexivity|]. split.
        * unfold pair_ok; cbn [p_inc p_dec p_iv p_dv].
          split; [apply times_val; assumption|]. split; [apply times_val; assumption|].
          split; apply no_nl_times; assumption.
        * intros fls' rf rr Ef' R. assert (fls' = fls) by congruence. subst. destruct (RR rf rr R) as [-> ->].
          right. right. exists i', n. split; auto. cbn. ring.
    - exists None. split; [reflexivity|]. split.
      + intros fls' rf rr Ef' R. assert (fls' = fls) by congruence. subst. left. auto.
      + intros fls' Ef'. assert (fls' = fls) by congruence. now subst.
  Qed.

  Lemma terms_ok name es : In name (ads s) -> (forall e, In e es -> In e (s_exprs s)) ->
    exists qs cs, adsorbate_terms s name es = Ok (map pair_str qs) /\ Forall pair_ok qs /\
      Forall2 (reaction_change name) es cs /\ Rsum (map (fun q => p_iv q - p_dv q)%R qs) = Rsum cs /\
      (qs = [] -> forall e fls, In e es -> rxn_formula_list e = Ok fls -> absent name fls).
  Proof.
    intro Hn. induction es as [|e es IH]; intro H; cbn [adsorbate_terms].
    - exists [], []. repeat split; auto; try constructor. intros _ e fls [].
    - destruct (elementary_ok name e Hn (H e (or_introl eq_refl))) as (o & E & Q). rewrite E. cbn [bind].
      destruct (IH (fun x Hx => H x (or_intror Hx))) as (qs & cs & E2 & F & C & R & A). rewrite E2. cbn [bind].
      destruct o as [q|]; cbn [option_map].
      + destruct Q as [Q1 Q2]. exists (q :: qs), ((p_iv q - p_dv q)%R :: cs).
        split; [reflexivity|]. split; [now constructor|]. split; [now constructor|].
        split; [cbn [map Rsum]; now rewrite R|]. discriminate.
      + destruct Q as [Q1 Q2]. exists qs, (0%R :: cs). split; [reflexivity|]. split; auto. split; [now constructor|].
        split; [cbn [Rsum]; rewrite R; ring|]. intros Hq e' fls [<-|He] Ef; eauto.
  Qed.

  Lemma terms_nonempty name qs cs : In name (ads s) ->
    adsorbate_terms s name (s_exprs s) = Ok (map pair_str qs) ->
    (qs = [] -> forall e fls, In e (s_exprs s) -> rxn_formula_list e = Ok fls -> absent name fls) ->
    Forall2 (reaction_change name) (s_exprs s) cs -> qs <> [].
  Proof.
    intros Hn _ A _ Hq. destruct (ads_known s P name Hn) as (f & _ & _ & -> & (rxn & st & H1 & H2 & H3)).
    destruct (parse_rxns_rxn _ _ _ (proj1 P) H1) as (e & He & Ef & _).
    apply (A Hq e rxn He Ef st f H2 H3). reflexivity.
  Qed.

  Lemma dtheta_lines_ok names : (forall n, In n names -> In n (ads s)) -> forall i,
    exists ts xs, dtheta_lines s i names = Ok (number_lines (L "dtheta_dt") i ts) /\
      Forall no_nl ts /\ Forall2 (sum_val v) ts xs /\
      Forall2 (fun n x => exists cs, Forall2 (reaction_change n) (s_exprs s) cs /\ x = Rsum cs) names xs.
  Proof.
    induction names as [|n ns IH]; intros H i; cbn [dtheta_lines].
    - exists [], []. repeat split; constructor.
    - destruct (IH (fun m Hm => H m (or_intror Hm)) (S i)) as (ts & xs & E & N & V & C).
      assert (Hn : In n (ads s)) by (apply H; now left).
      destruct (terms_ok n (s_exprs s) Hn (fun e He => He)) as (qs & cs & E2 & F & C2 & R & A).
      pose proof (terms_nonempty n qs cs Hn E2 A C2) as Hq.
      destruct (pairs_val qs Hq F) as [V2 N2].
      unfold adsorbate_dtheta_dt. rewrite E2. cbn [bind]. rewrite E. cbn [bind].
      exists (join (L " + ") (map pair_str qs) :: ts), (Rsum (map (fun q => p_iv q - p_dv q)%R qs) :: xs).
      split; [reflexivity|]. split; [now constructor|]. split; [now constructor|]. constructor; auto.
      exists cs. auto.
  Qed.

  Lemma steady_ok : exists data F,
    get_data s = Ok data /\ steady_state_function s (Ok (kf, kr)) (Some data) cvgs = Ok F /\
    Forall2 (fun n x => exists cs, Forall2 (reaction_change n) (s_exprs s) cs /\ x = Rsum cs) (ads s) F.
  Proof.
    destruct (dtheta_lines_ok (ads s) (fun n H => H) 0) as (ts & xs & E & N & V & C).
    eexists. exists xs. split; [apply get_data_ok; exact P|]. split; auto.
    unfold steady_state_function. rewrite (classify_ok s P). cbn [bind].
    rewrite (tuple2dict_ok s P cvgs Len). cbn [bind]. unfold dtheta_dt_expressions.
    change (l_ads (s_lists s)) with (ads s). rewrite E. cbn [bind].
    change (mf_env (tab (coverage s cvgs) (ads s ++ sites s)) (tab (value (s_pressure s)) (l_gas (s_lists s)))
             (tab (value (s_conc s)) (l_liq (s_lists s))) kf kr) with v.
    pose proof (Forall2_length _ _ _ C) as Lx. rewrite Lx.
    apply exec_text_numbered; auto; try (split; reflexivity); reflexivity.
  Qed.
End Rates.
