(** Mechanisms of single-site steps: lemmas. *)
From Coq Require Import String Ascii List ZArith NArith Bool Arith Reals Relations Lia Lra Permutation.
Import ListNotations.
From Verif Require Import PyBase PyBaseFacts Rxn_Model Rxn_Spec Rxn_Proofs Species_Model Species_Spec
  Species_Proofs Species_Matrix PyReal Energy_Model Energy_Spec Thermo_Model Rate_Model Rate_Spec
  Rate_Proofs MF_Model MF_Spec MF_Cover MF_Rate MF_More Steady_Model Steady_Spec
  Whole_Spec Whole_Energy Whole_Rates Whole_Order Whole_Bound Langmuir_Spec Langmuir_Proofs Hop_Spec Markov_Proofs.
Local Open Scope list_scope.
Local Open Scope R_scope.

(** Products of activities. *)
Lemma mass_action_pick s c k u f v :
  mass_action s c k (u ++ f :: v) = activity s c f ^ Z.to_nat (f_stoich f) * mass_action s c k (u ++ v).
Proof. induction u as [|g u IH]; cbn [app mass_action]; [reflexivity|]. rewrite IH. ring. Qed.
Lemma mass_action_fluid s c c' k st : (forall f, In f st -> ~ surface_site (f_site f)) ->
  mass_action s c k st = mass_action s c' k st.
Proof.
  induction st as [|f st IH]; intro H; cbn [mass_action]; [reflexivity|].
  rewrite IH by (intros; apply H; now right). f_equal. f_equal. unfold activity.
  destruct (str_eqb_spec (f_site f) (L "g")); [reflexivity|]. destruct (str_eqb_spec (f_site f) (L "l")); [reflexivity|].
  exfalso. apply (H f (or_introl eq_refl)). now split.
Qed.
Lemma mass_action_sign (ok : R -> Prop) s c k st : (forall x y, ok x -> ok y -> ok (x * y)) -> ok 1 -> ok k ->
  (forall f, In f st -> ok (activity s c f)) -> ok (mass_action s c k st).
Proof.
  intros Mul One Hk. induction st as [|f st IH]; intro H; cbn [mass_action]; auto.
  apply Mul; [|apply IH; intros; apply H; now right].
  pose proof (H f (or_introl eq_refl)) as Hf. induction (Z.to_nat (f_stoich f)) as [|n IHn]; cbn [pow]; auto.
Qed.

Section Edges.
  Definition edge := ((str * str) * (R * R))%type.
  Definition e_src (e : edge) : str := fst (fst e).
  Definition e_dst (e : edge) : str := snd (fst e).
  Definition e_net (v : str -> R) (e : edge) : R := fst (snd e) * v (e_src e) - snd (snd e) * v (e_dst e).
  Definition e_change (v : str -> R) (n : str) (e : edge) : R :=
    (if str_eqb (e_dst e) n then e_net v e else 0) - (if str_eqb (e_src e) n then e_net v e else 0).
  Definition e_rate (i j : str) (e : edge) : R :=
    (if str_eqb (e_src e) i then if str_eqb (e_dst e) j then fst (snd e) else 0 else 0) +
    (if str_eqb (e_dst e) i then if str_eqb (e_src e) j then snd (snd e) else 0 else 0).
  Definition rate_of (E : list edge) (i j : str) : R := Rsum (map (e_rate i j) E).

  Lemma Rsum_pick (g : str -> R) a : forall Ls, NoDup Ls -> In a Ls ->
    Rsum (map (fun j => if str_eqb a j then g j else 0) Ls) = g a.
  Proof.
    induction Ls as [|x t IH]; intros ND H; [destruct H|]. inversion ND as [|? ? NI ND']; subst. cbn [map Rsum].
    destruct (str_eqb_spec a x) as [->|Hn].
    - rewrite Rsum_zero; [ring|]. intros j Hj. destruct (str_eqb_spec x j); [congruence|reflexivity].
    - destruct H as [->|H]; [congruence|]. rewrite IH; auto. ring.
  Qed.

  Lemma inflow_edges E Ls v n : NoDup Ls -> In n Ls ->
    (forall e, In e E -> e_src e <> e_dst e /\ (e_src e = n -> In (e_dst e) Ls) /\ (e_dst e = n -> In (e_src e) Ls)) ->
    inflow Ls (rate_of E) v n = Rsum (map (e_change v n) E).
  Proof.
    intros ND Hn H. unfold inflow, rate_of.
    rewrite (Rsum_ext _ (fun j => Rsum (map (fun e => v j * e_rate j n e - v n * e_rate n j e) E))).
    2:{ intros j _. now rewrite Rsum_sub, !Rsum_mul. }
    rewrite Rsum_swap. apply Rsum_ext. intros e He. destruct (H e He) as (D & H1 & H2).
    unfold e_change, e_net, e_rate.
    destruct (str_eqb_spec (e_src e) n) as [E1|E1]; destruct (str_eqb_spec (e_dst e) n) as [E2|E2].
    - congruence.
    - pose proof (H1 E1) as I.
      rewrite (Rsum_ext _ (fun j => if str_eqb (e_dst e) j then v j * snd (snd e) - v n * fst (snd e) else 0)).
      + rewrite (Rsum_pick (fun j => v j * snd (snd e) - v n * fst (snd e))) by auto. rewrite E1. ring.
      + intros j _. destruct (str_eqb (e_src e) j), (str_eqb (e_dst e) j); ring.
    - pose proof (H2 E2) as I.
      rewrite (Rsum_ext _ (fun j => if str_eqb (e_src e) j then v j * fst (snd e) - v n * snd (snd e) else 0)).
      + rewrite (Rsum_pick (fun j => v j * fst (snd e) - v n * snd (snd e))) by auto. rewrite E2. ring.
      + intros j _. destruct (str_eqb (e_src e) j), (str_eqb (e_dst e) j); ring.
    - rewrite Rsum_zero; [ring|]. intros j _. destruct (str_eqb (e_src e) j), (str_eqb (e_dst e) j); ring.
  Qed.
  Lemma rate_nonneg E : (forall e, In e E -> 0 <= fst (snd e) /\ 0 <= snd (snd e)) -> forall i j, 0 <= rate_of E i j.
  Proof.
    intros H i j. apply Rsum_nonneg. intros e He. destruct (H e He). unfold e_rate.
    destruct (str_eqb (e_src e) i), (str_eqb (e_dst e) j), (str_eqb (e_dst e) i), (str_eqb (e_src e) j); lra.
  Qed.
  Lemma rate_positive E e : (forall e, In e E -> 0 < fst (snd e) /\ 0 < snd (snd e)) -> In e E ->
    0 < rate_of E (e_src e) (e_dst e) /\ 0 < rate_of E (e_dst e) (e_src e).
  Proof.
    intros H He. assert (N : forall i j e, In e E -> 0 <= e_rate i j e).
    { intros i j e' He'. destruct (H e' He'). unfold e_rate.
      destruct (str_eqb (e_src e') i), (str_eqb (e_dst e') j), (str_eqb (e_dst e') i), (str_eqb (e_src e') j); lra. }
    assert (Q : forall i j, 0 < e_rate i j e -> 0 < rate_of E i j).
    { intros i j P. unfold rate_of. clear H. induction E as [|d t IH]; [destruct He|]. cbn [map Rsum].
      assert (N' : forall i j e, In e t -> 0 <= e_rate i j e) by (intros; apply N; now right).
      destruct He as [->|He].
      - pose proof (Rsum_nonneg (e_rate i j) t (N' i j)). lra.
      - pose proof (IH He N'). pose proof (N i j d (or_introl eq_refl)). lra. }
    destruct (H e He). split; apply Q; unfold e_rate; rewrite !str_eqb_refl;
      destruct (str_eqb (e_dst e) (e_src e)), (str_eqb (e_src e) (e_dst e)); lra.
  Qed.
End Edges.

Section Hops.
  Variable s : setup.
  Hypothesis U : usable_setup s.
  Let P : prepared s := proj1 U.

  (** One reaction. *)
  Lemma hop_edge (ok : R -> Prop) fls a b ka kb : (forall x y, ok x -> ok y -> ok (x * y)) -> ok 1 -> ok ka -> ok kb ->
    supplied ok s -> In fls (l_rxns (s_lists s)) -> hop fls a b ->
    exists e : edge, fst e = (a, b) /\ ok (fst (snd e)) /\ ok (snd (snd e)) /\
      (forall c, fwd s c (fls, (ka, kb)) - bwd s c (fls, (ka, kb)) = e_net (coverage s c) e) /\
      forall c n, In n (ads s) ->
        counted n fls (fwd s c (fls, (ka, kb))) (bwd s c (fls, (ka, kb))) = e_change (coverage s c) n e.
  Proof.
    intros Mul One Ka Kb Sup R (u & x & v & mid & u' & y & v' & E & (X1 & [X2 X2'] & X3 & X4) & (Y1 & [Y2 Y2'] & Y3 & Y4) & D & T & Fl & Hm).
    assert (Occ : forall f st, In st fls -> In f st -> occurs f (l_rxns (s_lists s))) by (intros f st H1 H2; exists fls, st; auto).
    assert (F1 : forall f, In f (u ++ v) -> ~ surface_site (f_site f)).
    { intros f Hf. apply Fl. apply in_app_or in Hf as [Hf|Hf]; apply in_or_app; auto. right. apply in_or_app. auto. }
    assert (F2 : forall f, In f (u' ++ v') -> ~ surface_site (f_site f)).
    { intros f Hf. apply Fl. apply in_or_app; right. apply in_or_app; right. exact Hf. }
    assert (I1 : forall f, In f (u ++ v) -> In f (u ++ x :: v)).
    { intros f Hf. apply in_app_or in Hf as [Hf|Hf]; apply in_or_app; auto. right. now right. }
    assert (I2 : forall f, In f (u' ++ v') -> In f (u' ++ y :: v')).
    { intros f Hf. apply in_app_or in Hf as [Hf|Hf]; apply in_or_app; auto. right. now right. }
    assert (S1 : In (u ++ x :: v) fls) by (rewrite E; now left).
    assert (S2 : In (u' ++ y :: v') fls) by (rewrite E; right; apply in_or_app; right; now left).
    assert (Act : forall c f, occurs f (l_rxns (s_lists s)) -> ~ surface_site (f_site f) -> ok (activity s c f)).
    { intros c f Of Nf. destruct (Sup f Of) as [G1 G2]. unfold activity.
      destruct (str_eqb_spec (f_site f) (L "g")); auto. destruct (str_eqb_spec (f_site f) (L "l")); auto.
      exfalso. apply Nf. now split. }
    exists ((a, b), (mass_action s [] ka (u ++ v), mass_action s [] kb (u' ++ v'))). cbn [fst snd].
    split; [reflexivity|]. split.
    { apply mass_action_sign; auto. intros f Hf. apply Act; auto. eapply Occ; [exact S1|auto]. }
    split.
    { apply mass_action_sign; auto. intros f Hf. apply Act; auto. eapply Occ; [exact S2|auto]. }
    assert (Bg : begins fls = u ++ x :: v) by now rewrite E.
    assert (En : ends fls = u' ++ y :: v').
    { unfold ends. rewrite E, app_comm_cons. apply last_last. }
    assert (Rf : forall c, fwd s c (fls, (ka, kb)) = mass_action s [] ka (u ++ v) * coverage s c a).
    { intro c. unfold fwd. cbn [fst snd]. rewrite Bg, mass_action_pick, X1. change (Z.to_nat 1) with 1%nat.
      rewrite (mass_action_fluid s c [] ka (u ++ v) F1). unfold activity.
      rewrite (proj2 (str_eqb_neq _ _) X2), (proj2 (str_eqb_neq _ _) X2'), X3. ring. }
    assert (Rr : forall c, bwd s c (fls, (ka, kb)) = mass_action s [] kb (u' ++ v') * coverage s c b).
    { intro c. unfold bwd. cbn [fst snd]. rewrite En, mass_action_pick, Y1. change (Z.to_nat 1) with 1%nat.
      rewrite (mass_action_fluid s c [] kb (u' ++ v') F2). unfold activity.
      rewrite (proj2 (str_eqb_neq _ _) Y2), (proj2 (str_eqb_neq _ _) Y2'), Y3. ring. }
    split; [intro c; rewrite Rf, Rr; unfold e_net, e_src, e_dst; reflexivity|]. intros c n Hn.
    rewrite Rf, Rr. symmetry. apply counted_fun. unfold e_change, e_net, e_src, e_dst. cbn [fst snd].
    (* who can be n *)
    assert (NoF : forall f st, In st fls -> In f st -> ~ surface_site (f_site f) -> f_species_site f <> n).
    { intros f st H1 H2 H3 <-. apply H3. apply (occurs_ads s U f) in Hn; [now destruct Hn|]. eapply Occ; eauto. }
    assert (NoM : forall f st, In st mid -> In f st -> f_species_site f <> n).
    { intros f st H1 H2 <-. apply (Hm st f H1 H2). apply (occurs_ads s U f); auto. apply (Occ f st); auto.
      rewrite E. right. apply in_or_app. now left. }
    destruct (str_eqb_spec b n) as [Eb|Eb]; destruct (str_eqb_spec a n) as [Ea|Ea].
    - congruence.
    - right. right. exists (length mid), 1%Z. split; [|ring].
      exists (u' ++ y :: v'), u', y, v'. split.
      { rewrite E. cbn [nth_error]. rewrite nth_error_app2 by lia. now rewrite Nat.sub_diag. }
      split; [reflexivity|]. split; [congruence|]. split; [exact Y1|]. split.
      { intros g Hg. apply (NoF g (u' ++ y :: v')); auto; [apply in_or_app; now left|]. apply F2. apply in_or_app; now left. }
      intros j st Hj Hst g Hg. destruct j as [|j].
      + rewrite E in Hst. cbn in Hst. injection Hst as <-. apply in_app_or in Hg as [Hg|[<-|Hg]]; [| |].
        * apply (NoF g (u ++ x :: v)); auto; [apply in_or_app; now left|]. apply F1. apply in_or_app; now left.
        * congruence.
        * apply (NoF g (u ++ x :: v)); auto; [apply in_or_app; right; now right|]. apply F1. apply in_or_app; now right.
      + rewrite E in Hst. cbn [nth_error] in Hst. rewrite nth_error_app1 in Hst by lia.
        apply (NoM g st); auto. eapply nth_error_In; eauto.
    - right. left. exists 1%Z. split; [|ring].
      exists (u ++ x :: v), u, x, v. split; [now rewrite E|]. split; [reflexivity|]. split; [congruence|]. split; [exact X1|].
      split.
      { intros g Hg. apply (NoF g (u ++ x :: v)); auto; [apply in_or_app; now left|]. apply F1. apply in_or_app; now left. }
      intros j st Hj. lia.
    - left. split; [|ring]. intros st g Hst Hg. rewrite E in Hst. destruct Hst as [<-|Hst].
      + apply in_app_or in Hg as [Hg|[<-|Hg]].
        * apply (NoF g (u ++ x :: v)); auto; [apply in_or_app; now left|]. apply F1. apply in_or_app; now left.
        * congruence.
        * apply (NoF g (u ++ x :: v)); auto; [apply in_or_app; right; now right|]. apply F1. apply in_or_app; now right.
      + apply in_app_or in Hst as [Hst|[<-|[]]]; [now apply (NoM g st)|].
        apply in_app_or in Hg as [Hg|[<-|Hg]].
        * apply (NoF g (u' ++ y :: v')); auto; [apply in_or_app; now left|]. apply F2. apply in_or_app; now left.
        * congruence.
        * apply (NoF g (u' ++ y :: v')); auto; [apply in_or_app; right; now right|]. apply F2. apply in_or_app; now right.
  Qed.

  Variable l : list (str * str).
  Hypothesis OH : only_hops s l.
  Variables kf kr : list R.
  Hypothesis Lf : length kf = length (s_exprs s).
  Hypothesis Lr : length kr = length (s_exprs s).

  (** All of them. *)
  Lemma edges_of (ok : R -> Prop) : (forall x y, ok x -> ok y -> ok (x * y)) -> ok 1 ->
    (forall x, In x kf -> ok x) -> (forall x, In x kr -> ok x) -> supplied ok s ->
    exists E : list edge, map fst E = l /\ (forall e, In e E -> ok (fst (snd e)) /\ ok (snd (snd e))) /\
      forall c n, In n (ads s) ->
        derivative s c (reactions s kf kr) n = Rsum (map (e_change (coverage s c) n) E).
  Proof.
    intros Mul One Okf Okr Sup. destruct OH as [F _]. unfold derivative, reactions.
    assert (L1 : length kf = length (l_rxns (s_lists s))) by now rewrite (num_rxns s U).
    assert (L2 : length kr = length (l_rxns (s_lists s))) by now rewrite (num_rxns s U).
    assert (Sub : forall r, In r (l_rxns (s_lists s)) -> In r (l_rxns (s_lists s))) by auto.
    revert F L1 L2 Sub. generalize (l_rxns (s_lists s)) at 1 2 3 4 6. clear OH Lf Lr. intros rx F. revert kf kr Okf Okr.
    induction F as [|r p rx l' Hrp F IH]; intros f r' Okf Okr L1 L2 Sub.
    - exists []. split; [reflexivity|]. split; [intros e []|]. intros; reflexivity.
    - destruct f as [|ka f]; [discriminate|]. destruct r' as [|kb r']; [discriminate|].
      destruct (IH f r') as (E & E1 & E2 & E3).
      1,2: intros; auto with datatypes.
      1,2: cbn in L1, L2; lia.
      1: intros; apply Sub; now right.
      destruct (hop_edge ok r (fst p) (snd p) ka kb Mul One) as (e & e1 & e2 & e3 & _ & e4); auto.
      1,2: auto with datatypes.
      1: apply Sub; now left.
      exists (e :: E). split; [cbn [map]; rewrite e1, E1; now destruct p|].
      split; [intros e' [<-|He']; auto|].
      intros c n Hn. cbn [combine map Rsum fst snd]. now rewrite (e4 c n Hn), (E3 c n Hn).
  Qed.

  (** Reaction by reaction. *)
  Definition runs_as (x : rxn) (e : edge) : Prop :=
    (forall c, fwd s c x - bwd s c x = e_net (coverage s c) e) /\
    forall c n, In n (ads s) -> counted n (fst x) (fwd s c x) (bwd s c x) = e_change (coverage s c) n e.
  Lemma edges_paired (ok : R -> Prop) : (forall x y, ok x -> ok y -> ok (x * y)) -> ok 1 ->
    (forall x, In x kf -> ok x) -> (forall x, In x kr -> ok x) -> supplied ok s ->
    exists E : list edge, map fst E = l /\ (forall e, In e E -> ok (fst (snd e)) /\ ok (snd (snd e))) /\
      Forall2 runs_as (reactions s kf kr) E.
  Proof.
    intros Mul One Okf Okr Sup. destruct OH as [F _]. unfold reactions.
    assert (L1 : length kf = length (l_rxns (s_lists s))) by now rewrite (num_rxns s U).
    assert (L2 : length kr = length (l_rxns (s_lists s))) by now rewrite (num_rxns s U).
    assert (Sub : forall r, In r (l_rxns (s_lists s)) -> In r (l_rxns (s_lists s))) by auto.
    revert F L1 L2 Sub. generalize (l_rxns (s_lists s)) at 1 2 3 4 6. clear OH Lf Lr. intros rx F. revert kf kr Okf Okr.
    induction F as [|r p rx l' Hrp F IH]; intros f r' Okf Okr L1 L2 Sub.
    - exists []. split; [reflexivity|]. split; [intros e []|]. constructor.
    - destruct f as [|ka f]; [discriminate|]. destruct r' as [|kb r']; [discriminate|].
      destruct (IH f r') as (E & E1 & E2 & E3).
      1,2: intros; auto with datatypes.
      1,2: cbn in L1, L2; lia.
      1: intros; apply Sub; now right.
      destruct (hop_edge ok r (fst p) (snd p) ka kb Mul One) as (e & e1 & e2 & e3 & e4 & e5); auto.
      1,2: auto with datatypes.
      1: apply Sub; now left.
      exists (e :: E). split; [cbn [map]; rewrite e1, E1; now destruct p|].
      split; [intros e' [<-|He']; auto|].
      cbn [combine]. constructor; [|exact E3]. split; [exact e4|exact e5].
  Qed.

  (** Where the steps lead. *)
  Definition place (a : str) : Prop := In a (ads s) \/ (In a (sites s) /\ a = site_tag a).
  Lemma place_of f name : occurs f (l_rxns (s_lists s)) -> one_place f name -> place name.
  Proof.
    intros O (_ & Sf & <- & [A|A]).
    - left. now apply (occurs_ads s U f).
    - right. split; [|exact A]. destruct (parse_rxns_facts _ _ (proj1 P)) as (M & _ & _ & _ & _ & _ & _ & _ & _ & _ & S).
      rewrite A, (proj2 (site_of_known f (occurs_readable _ _ f M O))). apply S. exists f. auto.
  Qed.
  Lemma ends_known a b : In (a, b) l -> a <> b /\ site_tag a = site_tag b /\ place a /\ place b.
  Proof.
    intro H. destruct OH as [F _]. 
    assert (Ex : exists fls, In fls (l_rxns (s_lists s)) /\ hop fls a b).
    { clear -F H. induction F as [|r p rx l' Hrp F IH]; [destruct H|]. destruct H as [->|H].
      - exists r. split; [now left|exact Hrp].
      - destruct (IH H) as (fls & H1 & H2). exists fls. split; [now right|exact H2]. }
    destruct Ex as (fls & R & (u & x & v & mid & u' & y & v' & E & X & Y & D & T & _)).
    split; [exact D|]. split; [exact T|]. split.
    - apply (place_of x); auto. exists fls, (u ++ x :: v). split; auto. split; [rewrite E; now left|].
      apply in_or_app. right. now left.
    - apply (place_of y); auto. exists fls, (u' ++ y :: v'). split; auto. split.
      + rewrite E. right. apply in_or_app. right. now left.
      + apply in_or_app. right. now left.
  Qed.

  Definition states (site : str) : list str := site :: on site (ads s).
  Lemma in_states a site : In site (sites s) -> place a -> In a (states site) <-> site_tag a = site.
  Proof.
    intros Hs Pa. split.
    - intros [<-|H]; [|now apply on_In in H]. destruct Pa as [H|[_ H]]; [|now symmetry].
      exfalso. exact (ads_not_site s P _ H Hs).
    - intros <-. destruct Pa as [H|[_ H]]; [right; apply on_In; auto|left; now symmetry].
  Qed.
  Lemma states_NoDup site : In site (sites s) -> NoDup (states site).
  Proof.
    intro Hs. constructor.
    - intro H. apply on_In in H as [H _]. exact (ads_not_site s P _ H Hs).
    - apply NoDup_filter, (NoDup_ads s P).
  Qed.
  Lemma states_sum c site : length c = length (ads s) -> In site (sites s) ->
    Rsum (map (coverage s c) (states site)) = total s site.
  Proof.
    intros Len Hs. cbn [states map Rsum]. rewrite <- (covered_sum s P c Len site), (site_coverage s P c Len site Hs). ring.
  Qed.

  (** Zero rates are stationary shares, site by site. *)
  Section Shares.
    Variable E : list edge.
    Hypothesis El : map fst E = l.
    Lemma edge_ends e site : In site (sites s) -> In e E ->
      e_src e <> e_dst e /\ (In (e_src e) (states site) <-> In (e_dst e) (states site)).
    Proof.
      intros Hs He. assert (H : In (e_src e, e_dst e) l).
      { rewrite <- El. apply in_map_iff. exists e. split; auto. unfold e_src, e_dst. now destruct (fst e). }
      destruct (ends_known _ _ H) as (D & T & P1 & P2). split; [exact D|].
      rewrite (in_states _ site Hs P1), (in_states _ site Hs P2). now rewrite T.
    Qed.
    Lemma inflow_is v site n : In site (sites s) -> In n (states site) ->
      inflow (states site) (rate_of E) v n = Rsum (map (e_change v n) E).
    Proof.
      intros Hs Hn. apply inflow_edges; auto; [now apply states_NoDup|].
      intros e He. destruct (edge_ends e site Hs He) as [D Q]. split; [exact D|].
      split; intros Q'; rewrite Q' in Q; tauto.
    Qed.
    Variable c : list R.
    Hypothesis Ed : forall n, In n (ads s) ->
      derivative s c (reactions s kf kr) n = Rsum (map (e_change (coverage s c) n) E).
    Lemma zero_balanced : (forall n, In n (ads s) -> derivative s c (reactions s kf kr) n = 0) <->
      (forall site, In site (sites s) -> balanced_on (states site) (rate_of E) (coverage s c)).
    Proof.
      split.
      - intros Z site Hs.
        assert (B : forall i, In i (on site (ads s)) -> inflow (states site) (rate_of E) (coverage s c) i = 0).
        { intros i Hi. pose proof Hi as Hi'. apply on_In in Hi' as [Ha _].
          rewrite (inflow_is _ site i Hs (or_intror Hi)), <- Ed; auto. }
        intros i [<-|Hi]; [|auto].
        pose proof (inflow_sum (states site) (rate_of E) (coverage s c)) as Q. cbn [states map Rsum] in Q.
        rewrite (Rsum_zero _ (on site (ads s)) B) in Q. fold (states site) in Q. lra.
      - intros B n Hn. destruct (ads_site s P n Hn) as [_ Hs].
        assert (Hi : In n (states (site_tag n))) by (apply in_states; auto; now left).
        rewrite (Ed n Hn), <- (inflow_is _ _ n Hs Hi). exact (B _ Hs n Hi).
    Qed.
  End Shares.
End Hops.

Lemma finite_choice {A} (Q : str -> A -> Prop) (d : A) : forall m, (forall x, In x m -> exists v, Q x v) ->
  exists f, forall x, In x m -> Q x (f x).
Proof.
  induction m as [|y m IH]; intro H; [exists (fun _ => d); intros x []|].
  destruct (H y (or_introl eq_refl)) as [v Hv]. destruct IH as [f Hf]; [intros; apply H; now right|].
  exists (fun x => if str_eqb x y then v else f x). intros x Hx. destruct (str_eqb_spec x y) as [->|N]; auto.
  destruct Hx as [->|Hx]; [congruence|auto].
Qed.

Section Results.
  Variable s : setup.
  Hypothesis U : usable_setup s.
  Variable l : list (str * str).
  Hypothesis OH : only_hops s l.
  Let P : prepared s := proj1 U.
  Variables kf kr : list R.
  Hypothesis Lf : length kf = length (s_exprs s).
  Hypothesis Lr : length kr = length (s_exprs s).
  Hypothesis Tot : forall site, In site (sites s) -> 0 <= total s site <= 1.
  Let ND : NoDup (s_exprs s) := proj2 OH.

  Lemma steady_zero : exists data, get_data s = Ok data /\ forall c, length c = length (ads s) ->
    exists F, steady_state_function s (Ok (kf, kr)) (Some data) c = Ok F /\
      ((forall y, In y F -> y = 0) <-> forall n, In n (ads s) -> derivative s c (reactions s kf kr) n = 0).
  Proof.
    destruct (explicit s U ND (map (fun _ => 0) (ads s)) kf kr ltac:(now rewrite map_length) Lf Lr) as (data & D & _).
    exists data. split; [exact D|]. intros c Len.
    destruct (explicit s U ND c kf kr Len Lf Lr) as (data' & D' & _ & _ & E & _).
    assert (data' = data) by congruence. subst data'. eexists. split; [exact E|]. split.
    - intros H n Hn. apply H. now apply in_map.
    - intros H y Hy. apply in_map_iff in Hy as (n & <- & Hn). auto.
  Qed.

  Lemma zero_exists E : map fst E = l -> (forall e, In e E -> 0 <= fst (snd e) /\ 0 <= snd (snd e)) ->
    (forall c n, In n (ads s) -> derivative s c (reactions s kf kr) n = Rsum (map (e_change (coverage s c) n) E)) ->
    exists c, feasible s c /\ forall n, In n (ads s) -> derivative s c (reactions s kf kr) n = 0.
  Proof.
    intros El Ep Ed.
    destruct (finite_choice (fun site v => (forall i, 0 <= v i) /\ Rsum (map v (states s site)) = 1 /\
      balanced_on (states s site) (rate_of E) v) (fun _ => 0) (sites s)) as [f Hf].
    { intros site Hs. apply stationary_exists; [now apply states_NoDup|discriminate|now apply rate_nonneg]. }
    set (g := fun n => total s (site_tag n) * f (site_tag n) n).
    assert (Len : length (map g (ads s)) = length (ads s)) by now rewrite map_length.
    assert (Cov : forall site, In site (sites s) -> forall i, In i (states s site) ->
      coverage s (map g (ads s)) i = total s site * f site i).
    { intros site Hs. assert (On : forall i, In i (on site (ads s)) -> coverage s (map g (ads s)) i = total s site * f site i).
      { intros i Hi. apply on_In in Hi as [Hi <-]. now rewrite (map_coverage s P). }
      intros i [<-|Hi]; [|now apply On].
      rewrite (site_coverage s P _ Len site Hs), (covered_sum s P _ Len site), (Rsum_ext _ (fun i => total s site * f site i) _ On), Rsum_mul.
      destruct (Hf site Hs) as (_ & S1 & _). cbn [states map Rsum] in S1.
      replace (Rsum (map (f site) (on site (ads s)))) with (1 - f site site) by lra. ring. }
    assert (Small : forall site, In site (sites s) -> forall i, In i (states s site) -> 0 <= f site i <= 1).
    { intros site Hs i Hi. destruct (Hf site Hs) as (N & S1 & _). split; [apply N|].
      rewrite <- S1. clear -Hi N. induction (states s site) as [|y t IH]; [destruct Hi|]. cbn [map Rsum].
      destruct Hi as [->|Hi].
      - pose proof (Rsum_nonneg (f site) t (fun x _ => N x)). lra.
      - pose proof (IH Hi). pose proof (N y). lra. }
    exists (map g (ads s)). split.
    - split; [exact Len|]. split.
      + intros i n x Hn Hx. rewrite nth_error_map, Hn in Hx. injection Hx as <-.
        pose proof (nth_error_In _ _ Hn) as Ha. destruct (ads_site s P n Ha) as [_ Hs].
        assert (Hi : In n (states s (site_tag n))) by (apply (in_states s U); auto; now left).
        pose proof (Small _ Hs n Hi) as B. pose proof (Tot _ Hs) as T. unfold g.
        assert (0 <= total s (site_tag n) * f (site_tag n) n) by (apply Rmult_le_pos; lra).
        assert (total s (site_tag n) * f (site_tag n) n <= total s (site_tag n) * 1) by (apply Rmult_le_compat_l; lra). lra.
      + intros site Hs. pose proof (Cov site Hs site (or_introl eq_refl)) as E0.
        rewrite (site_coverage s P _ Len site Hs) in E0.
        pose proof (Small _ Hs site (or_introl eq_refl)) as B. pose proof (Tot _ Hs) as T.
        assert (0 <= total s site * f site site) by (apply Rmult_le_pos; lra). lra.
    - apply (zero_balanced s U l OH kf kr E El (map g (ads s)) (Ed _)).
      intros site Hs i Hi. destruct (Hf site Hs) as (_ & _ & B). pose proof (B i Hi) as Z. unfold inflow in *.
      rewrite (Rsum_ext _ (fun j => total s site * (f site j * rate_of E j i - f site i * rate_of E i j))).
      + rewrite Rsum_mul, Z. ring.
      + intros j Hj. rewrite (Cov site Hs i Hi), (Cov site Hs j Hj). ring.
  Qed.

  Lemma steady_exists : (forall a, In a kf -> 0 <= a) -> (forall b, In b kr -> 0 <= b) -> supplied (Rle 0) s ->
    exists data c F, get_data s = Ok data /\ feasible s c /\
      steady_state_function s (Ok (kf, kr)) (Some data) c = Ok F /\ forall y, In y F -> y = 0.
  Proof.
    intros Kf Kr Sup.
    destruct (edges_of s U l OH kf kr Lf Lr (Rle 0)) as (E & E1 & E2 & E3); auto; [apply Rmult_le_pos|lra|].
    destruct (zero_exists E E1 E2 E3) as (c & Fc & Z). destruct steady_zero as (data & D & H).
    destruct (H c (proj1 Fc)) as (F & EF & Q). exists data, c, F. split; [exact D|]. split; [exact Fc|].
    split; [exact EF|]. now apply Q.
  Qed.

  Section Unique.
    Hypothesis Kf : forall a, In a kf -> 0 < a.
    Hypothesis Kr : forall b, In b kr -> 0 < b.
    Hypothesis Sup : supplied (Rlt 0) s.
    Hypothesis Lk : linked s l.

    Lemma states_linked E site : map fst E = l -> (forall e, In e E -> 0 < fst (snd e) /\ 0 < snd (snd e)) ->
      In site (sites s) -> all_linked (states s site) (rate_of E).
    Proof.
      intros El Ep Hs Q Cl.
      assert (Step : forall a b, clos_refl_sym_trans str (fun a b => In (a, b) l) a b ->
        (In a (states s site) <-> In b (states s site)) /\ (In a (states s site) -> (Q a <-> Q b))).
      { intros a b H. induction H as [a b H|a|a b H IH|a b c H1 IH1 H2 IH2].
        - rewrite <- El in H. apply in_map_iff in H as (e & He & Hin).
          assert (e_src e = a /\ e_dst e = b) as [<- <-] by (unfold e_src, e_dst; rewrite He; auto).
          destruct (edge_ends s U l OH E El e site Hs Hin) as [_ I]. split; [exact I|]. intro Ia.
          destruct (rate_positive E e Ep Hin) as [R1 R2]. split; intro Hq.
          + apply (Cl (e_src e) (e_dst e)); auto. now apply I.
          + apply (Cl (e_dst e) (e_src e)); auto. now apply I.
        - tauto.
        - tauto.
        - tauto. }
      assert (To : forall i, In i (states s site) -> Q i <-> Q site).
      { intros i [<-|Hi]; [tauto|]. pose proof Hi as Hi'. apply on_In in Hi' as [Ha Ht].
        pose proof (Lk i Ha) as C. rewrite Ht in C. apply (Step _ _ C). now right. }
      intros i j Hi Hj Hq. apply (To j Hj). now apply (To i Hi).
    Qed.

    Lemma exactly_one : exists data c, get_data s = Ok data /\ feasible s c /\
      ((forall site, In site (sites s) -> 0 < total s site) ->
         forall x, In x (ads s) \/ In x (sites s) -> 0 < coverage s c x) /\
      forall c', length c' = length (ads s) ->
        (exists F, steady_state_function s (Ok (kf, kr)) (Some data) c' = Ok F /\ forall y, In y F -> y = 0) <-> c' = c.
    Proof.
      destruct (edges_of s U l OH kf kr Lf Lr (Rlt 0)) as (E & E1 & E2 & E3); auto; [apply Rmult_lt_0_compat|lra|].
      assert (E2' : forall e, In e E -> 0 <= fst (snd e) /\ 0 <= snd (snd e)) by (intros e He; destruct (E2 e He); lra).
      destruct (zero_exists E E1 E2' E3) as (c & Fc & Z). pose proof (proj1 Fc) as Len.
      destruct steady_zero as (data & D & H). exists data, c. split; [exact D|]. split; [exact Fc|].
      pose proof (proj1 (zero_balanced s U l OH kf kr E E1 c (E3 c)) Z) as B.
      assert (K0 : forall i j, 0 <= rate_of E i j) by now apply rate_nonneg.
      split.
      - intros T.
        assert (N : forall x, In x (ads s) \/ In x (sites s) -> 0 <= coverage s c x).
        { destruct Fc as (_ & F1 & F2). intros x [Hx|Hx].
          - destruct (In_nth_error _ _ Hx) as [i Hi].
            destruct (nth_error c i) as [y|] eqn:Hy.
            + rewrite (nth_coverage s P c Len i x y Hi Hy). now apply (F1 i x y).
            + apply nth_error_None in Hy. assert (i < length (ads s))%nat by (apply nth_error_Some; congruence). lia.
          - rewrite (site_coverage s P c Len x Hx). pose proof (F2 x Hx). lra. }
        assert (Pos : forall site, In site (sites s) -> forall i, In i (states s site) -> 0 < coverage s c i).
        { intros site Hs. apply (all_positive (states s site) (rate_of E) K0 (states_linked E site E1 E2 Hs)).
          - now apply B.
          - rewrite (states_sum s U c site Len Hs). now apply T.
          - intros i [<-|Hi]; apply N; [now right|left]. now apply on_In in Hi. }
        intros x [Hx|Hx].
        + destruct (ads_site s P x Hx) as [_ Hs]. apply (Pos _ Hs). apply (in_states s U); auto. now left.
        + apply (Pos x Hx). now left.
      - intros c' Len'. destruct (H c' Len') as (F' & EF' & Q'). split.
        + intros (F & EF & ZF). assert (F = F') by congruence. subst F'.
          pose proof (proj1 (zero_balanced s U l OH kf kr E E1 c' (E3 c')) (proj1 Q' ZF)) as B'.
          rewrite <- (coverages_list s P c Len), <- (coverages_list s P c' Len').
          apply map_ext_in. intros n Hn. destruct (ads_site s P n Hn) as [_ Hs].
          pose proof (zero_only (states s (site_tag n)) (rate_of E) K0 (states_linked E _ E1 E2 Hs)
            (fun i => coverage s c' i - coverage s c i)) as Z0. cbn beta in Z0.
          assert (Hi : In n (states s (site_tag n))) by (apply (in_states s U); auto; now left).
          enough (coverage s c' n - coverage s c n = 0) by lra. apply Z0; auto.
          * apply balanced_sub; auto.
          * rewrite Rsum_sub, (states_sum s U c' _ Len' Hs), (states_sum s U c _ Len Hs). ring.
        + intros ->. destruct (H c Len) as (F & EF & Q). exists F. split; [exact EF|]. now apply Q.
    Qed.
  End Unique.
End Results.

(** Rate constants from energies are positive. *)
Lemma exactly_one_TST ec o own s l r : usable_setup s -> only_hops s l -> linked s l -> supplied (Rlt 0) s ->
  (forall site, In site (sites s) -> 0 <= total s site <= 1) ->
  o_rxns o = s_exprs s -> 0 < o_T o -> consistent r (length (s_exprs s)) ->
  exists data kf kr c, get_data s = Ok data /\ rate_constants ec o (L "TST") (Some r) own = Ok (kf, kr) /\ feasible s c /\
    forall c', length c' = length (ads s) ->
      (exists F, steady_state_function s (Ok (kf, kr)) (Some data) c' = Ok F /\ forall y, In y F -> y = 0) <-> c' = c.
Proof.
  intros U OH Lk Sup Tot Eo HT Cons. pose proof (proj2 OH) as ND.
  destruct (constants_of ec o r own HT) as (kf & kr & E & L1 & L2 & V); [rewrite Eo; exact ND|rewrite Eo; exact Cons|].
  rewrite Eo in L1, L2. pose proof Cons as [(_ & _ & L3) _].
  assert (Pos : (forall a, In a kf -> 0 < a) /\ (forall b, In b kr -> 0 < b)).
  { assert (K1 : length kf = length (r_dG r)) by congruence. assert (K2 : length kr = length (r_dG r)) by congruence.
    split; intros a Ha; apply In_nth_error in Ha as [i Hi].
    - assert (Hd : (i < length (r_dG r))%nat) by (rewrite <- K1; apply nth_error_Some; congruence).
      destruct (nth_error (r_dG r) i) as [d|] eqn:Ed; [|apply nth_error_None in Ed; lia].
      destruct (V i d Ed) as (a' & b' & X1 & X2 & Pa & Pb & _). congruence.
    - assert (Hd : (i < length (r_dG r))%nat) by (rewrite <- K2; apply nth_error_Some; congruence).
      destruct (nth_error (r_dG r) i) as [d|] eqn:Ed; [|apply nth_error_None in Ed; lia].
      destruct (V i d Ed) as (a' & b' & X1 & X2 & Pa & Pb & _). congruence. }
  destruct (exactly_one s U l OH kf kr L1 L2 Tot (proj1 Pos) (proj2 Pos) Sup Lk) as (data & c & D & Fc & _ & Q).
  exists data, kf, kr, c. auto.
Qed.
