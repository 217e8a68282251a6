(** A mechanism written in another order, or with some reactions written the other way round. *)
From Coq Require Import String Ascii List ZArith NArith Bool Arith Reals Lia Lra Permutation.
Import ListNotations.
From Verif Require Import PyBase PyBaseFacts Rxn_Model Rxn_Spec Rxn_Proofs Rxn_Count Species_Model Species_Spec
  Species_Proofs Species_Matrix PyReal MF_Model MF_Spec MF_Cover MF_Rate MF_More MF_Witness Whole_Spec Whole_Energy
  Whole_Rates Whole_Bound.
Local Open Scope list_scope.
Local Open Scope R_scope.

(** ** The lists *)
Lemma same_lists es es' p p' : parse_rxns es = Ok p -> parse_rxns es' = Ok p' ->
  (forall f, occurs f (l_rxns p) <-> occurs f (l_rxns p')) ->
  l_ads p' = l_ads p /\ l_site p' = l_site p /\ l_gas p' = l_gas p /\ l_liq p' = l_liq p /\ l_ts p' = l_ts p.
Proof.
  intros H H' O. apply parse_rxns_iff in H as [_ (rx & _ & ->)]. apply parse_rxns_iff in H' as [_ (rx' & _ & ->)].
  cbn [l_ads l_gas l_liq l_site l_ts l_rxns] in *.
  assert (HI : forall f, In f (concat (concat rx')) <-> In f (concat (concat rx))).
  { intro f. rewrite !occurs_concat. symmetry. apply O. }
  repeat split; apply sorted_set_ext; intro n; now apply flat_map_perm_In.
Qed.

Definition parsed_list (e : str) : list (list formula) := match rxn_formula_list e with Ok fls => fls | Err _ => [] end.
Definition parsed_pair (p : str * (R * R)) : rxn := (parsed_list (fst p), snd p).

Lemma parsed_rxns es p : parse_rxns es = Ok p -> l_rxns p = map parsed_list es.
Proof.
  intro H. apply parse_rxns_facts in H as (M & _). apply mapM_ok_iff in M. induction M as [|e fls es rs He M IH]; cbn; auto.
  rewrite IH. f_equal. unfold parsed_list. now rewrite He.
Qed.

Lemma combine_map_l {A B C} (g : A -> B) (a : list A) (b : list C) :
  combine (map g a) b = map (fun p => (g (fst p), snd p)) (combine a b).
Proof. revert b; induction a as [|x a IH]; intros [|y b]; cbn; auto. now rewrite IH. Qed.

Lemma reactions_pairs s kf kr : parse_rxns (s_exprs s) = Ok (s_lists s) ->
  reactions s kf kr = map parsed_pair (combine (s_exprs s) (combine kf kr)).
Proof. intro H. unfold reactions. now rewrite (parsed_rxns _ _ H), combine_map_l. Qed.

Lemma fst_combine {A B} (a : list A) (b : list B) : length b = length a -> map fst (combine a b) = a.
Proof. revert b; induction a as [|x a IH]; intros [|y b] H; try discriminate; cbn; auto. rewrite IH; auto. Qed.

Lemma pairs_fst s (kf kr : list R) : length kf = length (s_exprs s) -> length kr = length (s_exprs s) ->
  map fst (combine (s_exprs s) (combine kf kr)) = s_exprs s.
Proof. intros. apply fst_combine. rewrite combine_length. lia. Qed.

Lemma Rsum_perm l l' : Permutation l l' -> Rsum l = Rsum l'.
Proof. induction 1; cbn; lra. Qed.

(** ** Transport *)
Section Transport.
  Variables s s' : setup.
  Hypothesis U : usable_setup s.
  Hypothesis S : same_but_reactions s s'.
  Hypothesis O : forall f, occurs f (l_rxns (s_lists s)) <-> occurs f (l_rxns (s_lists s')).

  Lemma lists_equal : ads s' = ads s /\ sites s' = sites s /\ l_gas (s_lists s') = l_gas (s_lists s) /\
    l_liq (s_lists s') = l_liq (s_lists s).
  Proof. destruct (same_lists _ _ _ _ (proj1 (proj1 U)) (proj1 S) O) as (A & B & C & D & _). auto. Qed.

  Lemma prepared_too : prepared s'.
  Proof.
    destruct S as (P & T & G & C). destruct U as [(_ & P1 & P2 & P3) _].
    destruct lists_equal as (_ & E2 & E3 & E4). unfold sites in *. split; [exact P|].
    rewrite T, G, C, E2, E3, E4. auto.
  Qed.

  Lemma same_activity cvgs f : activity s' cvgs f = activity s cvgs f.
  Proof.
    destruct S as (P & T & G & C). destruct lists_equal as (E1 & _).
    unfold activity, coverage, total. now rewrite T, G, C, E1.
  Qed.

  Lemma same_mass_action cvgs k st : mass_action s' cvgs k st = mass_action s cvgs k st.
  Proof. induction st as [|f st IH]; cbn [mass_action]; auto. now rewrite IH, same_activity. Qed.
End Transport.

Lemma occurs_in f rxns : occurs f rxns <-> exists fls st, In fls rxns /\ In st fls /\ In f st.
Proof. reflexivity. Qed.

(** ** Order *)
Lemma order_free s s' cvgs kf kr kf' kr' :
  usable_setup s -> NoDup (s_exprs s) -> same_but_reactions s s' ->
  length kf = length (s_exprs s) -> length kr = length (s_exprs s) ->
  length kf' = length (s_exprs s') -> length kr' = length (s_exprs s') ->
  Permutation (combine (s_exprs s) (combine kf kr)) (combine (s_exprs s') (combine kf' kr')) ->
  length cvgs = length (ads s) ->
  ads s' = ads s /\ sites s' = sites s /\ l_gas (s_lists s') = l_gas (s_lists s) /\ l_liq (s_lists s') = l_liq (s_lists s) /\
  exists data data' F tof,
    get_data s = Ok data /\ get_data s' = Ok data' /\
    steady_state_function s (Ok (kf, kr)) (Some data) cvgs = Ok F /\
    steady_state_function s' (Ok (kf', kr')) (Some data') cvgs = Ok F /\
    tofs s (Ok (kf, kr)) (Some data) cvgs = Ok tof /\ tofs s' (Ok (kf', kr')) (Some data') cvgs = Ok tof.
Proof.
  intros U ND S L1 L2 L3 L4 Pe Len.
  pose proof (proj1 (proj1 U)) as P. pose proof (proj1 S) as P'.
  assert (PX : Permutation (reactions s kf kr) (reactions s' kf' kr')).
  { rewrite (reactions_pairs s _ _ P), (reactions_pairs s' _ _ P'). now apply Permutation_map. }
  assert (PE : Permutation (s_exprs s) (s_exprs s')).
  { rewrite <- (pairs_fst s kf kr L1 L2), <- (pairs_fst s' kf' kr' L3 L4). now apply Permutation_map. }
  assert (PR : Permutation (l_rxns (s_lists s)) (l_rxns (s_lists s'))).
  { rewrite (parsed_rxns _ _ P), (parsed_rxns _ _ P'). now apply Permutation_map. }
  assert (O : forall f, occurs f (l_rxns (s_lists s)) <-> occurs f (l_rxns (s_lists s'))).
  { intro f. split; intros (r & st & H1 & H2 & H3); exists r, st; repeat split; auto;
      [apply (Permutation_in r PR)|apply (Permutation_in r (Permutation_sym PR))]; auto. }
  destruct (lists_equal s s' U S O) as (E1 & E2 & E3 & E4).
  do 4 (split; [assumption|]).
  assert (U' : usable_setup s').
  { split; [now apply (prepared_too s s')|]. intros fls H. apply (proj2 U). exact (Permutation_in fls (Permutation_sym PR) H). }
  assert (ND' : NoDup (s_exprs s')) by (eapply Permutation_NoDup; eauto).
  destruct (explicit s U ND cvgs kf kr Len L1 L2) as (data & A1 & _ & _ & A4 & A5).
  destruct (explicit s' U' ND' cvgs kf' kr') as (data' & B1 & _ & _ & B4 & B5); auto; [now rewrite E1|].
  exists data, data'. do 2 eexists. do 2 (split; [eassumption|]). split; [exact A4|]. split; [|split; [exact A5|]].
  - rewrite B4, E1. f_equal. apply map_ext. intro n. unfold derivative. symmetry.
    transitivity (Rsum (map (fun x => counted n (fst x) (fwd s' cvgs x) (bwd s' cvgs x)) (reactions s kf kr))).
    + apply Rsum_ext. intros x _. unfold fwd, bwd. now rewrite !(same_mass_action s s' U S O).
    + apply Rsum_perm. now apply Permutation_map.
  - rewrite B5, E3, E4. f_equal. apply map_ext. intro n. unfold turnover. symmetry.
    transitivity (Rsum (map (fun x => - IZR (consumption (fst x) n) * (fwd s' cvgs x - bwd s' cvgs x)) (reactions s kf kr))).
    + apply Rsum_ext. intros x _. unfold fwd, bwd. now rewrite !(same_mass_action s s' U S O).
    + apply Rsum_perm. now apply Permutation_map.
Qed.

(** ** Direction *)
Lemma begins_rev fls : begins (rev fls) = ends fls.
Proof.
  unfold begins, ends. induction fls as [|a fls IH]; auto. cbn [rev]. destruct fls as [|b t]; auto.
  change (last (a :: b :: t) []) with (last (b :: t) (@nil formula)). rewrite <- IH.
  destruct (rev (b :: t)) as [|c u] eqn:E; [|reflexivity].
  apply (f_equal (@length _)) in E. rewrite rev_length in E. discriminate.
Qed.
Lemma ends_rev fls : ends (rev fls) = begins fls.
Proof. rewrite <- (rev_involutive fls) at 2. now rewrite begins_rev. Qed.

Lemma direction_free s s' cvgs kf kr kf' kr' :
  usable_setup s -> NoDup (s_exprs s) -> NoDup (s_exprs s') -> same_but_reactions s s' ->
  length kf = length (s_exprs s) -> length kr = length (s_exprs s) ->
  length kf' = length (s_exprs s') -> length kr' = length (s_exprs s') ->
  Forall2 turned (combine (s_exprs s) (combine kf kr)) (combine (s_exprs s') (combine kf' kr')) ->
  (forall n fls, In n (ads s) -> In fls (l_rxns (s_lists s) ++ l_rxns (s_lists s')) -> plain_in n fls) ->
  length cvgs = length (ads s) ->
  ads s' = ads s /\ sites s' = sites s /\ l_gas (s_lists s') = l_gas (s_lists s) /\ l_liq (s_lists s') = l_liq (s_lists s) /\
  exists data data' F tof,
    get_data s = Ok data /\ get_data s' = Ok data' /\
    steady_state_function s (Ok (kf, kr)) (Some data) cvgs = Ok F /\
    steady_state_function s' (Ok (kf', kr')) (Some data') cvgs = Ok F /\
    tofs s (Ok (kf, kr)) (Some data) cvgs = Ok tof /\ tofs s' (Ok (kf', kr')) (Some data') cvgs = Ok tof.
Proof.
  intros U ND ND' S L1 L2 L3 L4 Tu Pl Len.
  pose proof (proj1 (proj1 U)) as P. pose proof (proj1 S) as P'.
  assert (Ok1 : forall e, In e (s_exprs s) -> rxn_formula_list e = Ok (parsed_list e)).
  { intros e He. destruct (proj1 (parse_rxns_ok_iff _) (ex_intro _ _ P) e He) as [_ [fls E]]. unfold parsed_list. now rewrite E. }
  (* the parsed reactions correspond *)
  assert (TX : Forall2 (fun x y : rxn => x = y \/ (fst y = rev (fst x) /\ snd y = (snd (snd x), fst (snd x))))
     (reactions s kf kr) (reactions s' kf' kr')).
  { rewrite (reactions_pairs s _ _ P), (reactions_pairs s' _ _ P').
    assert (In1 : forall p, In p (combine (s_exprs s) (combine kf kr)) -> In (fst p) (s_exprs s)).
    { intros p Hp. rewrite <- (pairs_fst s kf kr L1 L2). now apply in_map. }
    clear -Tu Ok1 In1. induction Tu as [|x y l l' H Tu IH]; constructor; [|apply IH; intros; apply In1; now right].
    destruct H as [->|[H1 H2]]; [now left|right]. split; [|exact H2]. cbn [parsed_pair fst].
    pose proof (Ok1 _ (In1 x (or_introl eq_refl))) as E. pose proof (revert_formula_list _ _ _ H1 E) as E'.
    unfold parsed_list at 1. now rewrite E'. }
  assert (FX : forall t kf kr, parse_rxns (s_exprs t) = Ok (s_lists t) -> length kf = length (s_exprs t) ->
     length kr = length (s_exprs t) -> map fst (reactions t kf kr) = l_rxns (s_lists t)).
  { intros t f r Pt Hf Hr. unfold reactions. apply fst_combine. rewrite (parsed_rxns _ _ Pt), map_length, combine_length. lia. }
  assert (TR : Forall2 (fun a b : list (list formula) => b = a \/ b = rev a) (l_rxns (s_lists s)) (l_rxns (s_lists s'))).
  { rewrite <- (FX s kf kr P L1 L2), <- (FX s' kf' kr' P' L3 L4). clear -TX. induction TX; cbn; constructor; auto.
    destruct H as [->|[H _]]; auto. }
  assert (O : forall f, occurs f (l_rxns (s_lists s)) <-> occurs f (l_rxns (s_lists s'))).
  { intro f. clear -TR. unfold occurs. induction TR as [|a b l l' H TR IH].
    - split; intros (r & st & [] & _).
    - split; intros (r & st & [Hr|Hr] & H2 & H3).
      + subst r. exists b, st. split; [now left|]. split; auto. destruct H as [->| ->]; auto. now apply in_rev in H2.
      + destruct (proj1 IH) as (r' & st' & Q1 & Q2 & Q3); [exists r, st; auto|]. exists r', st'. split; [now right|auto].
      + subst r. exists a, st. split; [now left|]. split; auto. destruct H as [->| ->]; auto. now apply in_rev.
      + destruct (proj2 IH) as (r' & st' & Q1 & Q2 & Q3); [exists r, st; auto|]. exists r', st'. split; [now right|auto]. }
  destruct (lists_equal s s' U S O) as (E1 & E2 & E3 & E4).
  do 4 (split; [assumption|]).
  assert (U' : usable_setup s').
  { split; [now apply (prepared_too s s')|]. intros fls H. 
    assert (exists a, In a (l_rxns (s_lists s)) /\ (fls = a \/ fls = rev a)) as (a & Ha & E).
    { clear -TR H. induction TR as [|a b l l' Q TR IH]; [destruct H|]. destruct H as [<-|H]; [exists a; split; [now left|auto]|].
      destruct (IH H) as (c & ? & ?). exists c. split; [now right|auto]. }
    pose proof (proj2 U a Ha) as Ua. pose proof (rxn_nonempty s U a Ha) as Na. destruct E as [->| ->]; auto.
    destruct (Ua _ _ (begins_first a Na) (ends_last a Na)) as [U1 U2]. intros first la H1 H2.
    apply begins_ok in H1. apply ends_ok in H2. rewrite begins_rev in H1. rewrite ends_rev in H2. subst. auto. }
  destruct (explicit s U ND cvgs kf kr Len L1 L2) as (data & A1 & _ & _ & A4 & A5).
  destruct (explicit s' U' ND' cvgs kf' kr') as (data' & B1 & _ & _ & B4 & B5); auto; [now rewrite E1|].
  exists data, data'. do 2 eexists. do 2 (split; [eassumption|]). split; [exact A4|].
  assert (TO : forall n, turnover s' cvgs (reactions s' kf' kr') n = turnover s cvgs (reactions s kf kr) n).
  { intro n. unfold turnover. assert (NE : forall x, In x (reactions s kf kr) -> fst x <> []).
    { intros x Hx. apply (rxn_nonempty s U). now destruct (reactions_In _ _ _ _ Hx). }
    clear -TX NE U S O. induction TX as [|x y l l' H TX IH]; auto. cbn [map Rsum]. rewrite IH by (intros; apply NE; now right).
    f_equal. unfold fwd, bwd. rewrite !(same_mass_action s s' U S O). pose proof (NE x (or_introl eq_refl)) as Nx.
    destruct H as [->|[H1 H2]]; auto. rewrite H1, H2. cbn [fst snd]. rewrite begins_rev, ends_rev.
    rewrite !consumption_ends by (auto; intro E; apply (f_equal (@rev _)) in E; rewrite rev_involutive in E; auto).
    rewrite begins_rev, ends_rev. unfold net_consumption. rewrite !minus_IZR. ring. }
  split; [|split; [exact A5|]].
  - rewrite B4, E1. f_equal. apply map_ext_in. intros n Hn.
    assert (DT : forall t kf kr, usable_setup t -> 
       (forall fls, In fls (l_rxns (s_lists t)) -> plain_in n fls) ->
       derivative t cvgs (reactions t kf kr) n = turnover t cvgs (reactions t kf kr) n).
    { intros t f r Ut Pt. apply Rsum_ext. intros x Hx. destruct (reactions_In _ _ _ _ Hx) as (A & _).
      pose proof (rxn_nonempty t Ut _ A) as Nx. rewrite consumption_ends by auto.
      exact (plain_change n (fst x) _ _ _ (Pt _ A) (counted_is n (fst x) _ _) _ _ (begins_first _ Nx) (ends_last _ Nx)). }
    rewrite (DT s' kf' kr' U'), (DT s kf kr U); auto; intros fls Hf; apply Pl; auto; apply in_or_app; auto.
  - rewrite B5, E3, E4. f_equal. apply map_ext. auto.
Qed.
