(** Proofs about the symbolic evaluation: rates of change of the coverages. *)
From Coq Require Import String Ascii List ZArith NArith Bool Arith Reals Lia Lra.
Import ListNotations.
From Verif Require Import PyBase PyBaseFacts Rxn_Model Rxn_Spec Rxn_Proofs Species_Model Species_Spec
  Species_Proofs Species_Matrix PyReal Energy_Model Energy_Spec Thermo_Model Rate_Model Rate_Spec Rate_Proofs
  MF_Model MF_Spec MF_Cover MF_Rate MF_More Archive_Proofs Sym_Model Sym_Spec Sym_Proofs Sym_Eval Sym_Rates Sym_Main.
Local Open Scope nat_scope.
Local Open Scope list_scope.

Section Steady.
  Variable s : setup.
  Hypothesis U : usable_setup s.
  Variables (T : R) (r : rel_energies) (cvgs : list R) (d : dict R).
  Hypothesis HT : (0 < T)%R.
  Hypothesis ER : energies_ready s r.
  Hypothesis Len : length cvgs = length (ads s).
  Hypothesis PS : plain_sites s.
  Hypothesis NL : l_liq (s_lists s) = [].
  Hypothesis SB : substitution s T r (ads s) (coverage s cvgs) d.

  Let P : prepared s := proj1 U.

  (** What one reaction adds. *)
  Definition bare_in (name e : str) (c : R) : Prop :=
    forall fls rf rr, rxn_formula_list e = Ok fls -> rxn_rates s cvgs (kf_list T r) (kr_list T r) e rf rr ->
      bare_change name fls rf rr c.

  Lemma dtheta_elementary name e : In name (ads s) -> In e (s_exprs s) ->
    exists o, elementary_dtheta_sym s (the_symbols s) name e = Ok o /\
      match o with
      | None => bare_in name e 0 /\ (forall fls, rxn_formula_list e = Ok fls -> absent name fls)
      | Some x => exists v, sev d x = Ok v /\ bare_in name e v
      end.
  Proof.
    intros Hn He. unfold elementary_dtheta_sym.
    assert (str_mem name (l_ads (s_lists s)) = true) as -> by now apply str_mem_In. cbn [negb].
    assert (str_mem e (s_exprs s) = true) as -> by now apply str_mem_In. cbn [negb].
    destruct (Sym_Rates.elementary_ok s U T r cvgs d HT ER Len PS NL SB e He) as (rf & rr & x & z & A & B & C & D).
    destruct (In_nth_error _ _ He) as [j Hj]. destruct (formula_list_at s U j e Hj) as (fls & En & Ef).
    rewrite Ef. cbn [bind]. destruct (concat fls) eqn:Ec; [now apply (concat_nonempty s U e fls He Ef) in Ec|].
    clear Ec l. 
    assert (KF : length (kf_list T r) = length (s_exprs s)) by (unfold kf_list; rewrite map_length; apply ER).
    assert (KR : length (kr_list T r) = length (s_exprs s)).
    { unfold kr_list. rewrite map_length, combine_length. destruct ER as [-> ->]. apply Nat.min_id. }
    pose proof (find_in_states_spec s cvgs (kf_list T r) (kr_list T r) Len KF KR name fls 0) as F.
    assert (UQ : forall x' z', rxn_rates s cvgs (kf_list T r) (kr_list T r) e x' z' -> x' = x /\ z' = z).
    { intros x' z' H. destruct (rxn_rates_unique s U T r cvgs ER Len e x z x' z' He D H) as [-> ->]. auto. }
    destruct (find_in_states name 0 fls) as [[i n]|].
    - destruct F as (i' & -> & M). cbn [Nat.add]. rewrite A. cbn [bind]. eexists. split; [reflexivity|].
      destruct i' as [|i']; cbn [sev]; rewrite B, C; cbn [bind]; eexists; (split; [reflexivity|]);
        intros fls' x' z' Ef' RR; assert (fls' = fls) by congruence; subst; destruct (UQ x' z' RR) as [-> ->].
      + right. left. exists n. split; auto. ring.
      + right. right. exists i', n. auto.
    - exists None. split; [reflexivity|]. split.
      + intros fls' x' z' Ef' RR. left. assert (fls' = fls) by congruence. subst. auto.
      + intros fls' Ef'. assert (fls' = fls) by congruence. subst. exact F.
  Qed.

  Definition oval (o : option sexpr) (x : R) : Prop :=
    match o with None => x = 0%R | Some e => sev d e = Ok x end.

  Lemma adsorbate_sum_value name : In name (ads s) -> forall es acc x,
    (forall e, In e es -> In e (s_exprs s)) -> oval acc x ->
    exists o cs, adsorbate_sum s (the_symbols s) name acc es = Ok o /\ Forall2 (bare_in name) es cs /\
      oval o (x + Rsum cs)%R /\
      (o = None -> acc = None /\ forall e fls, In e es -> rxn_formula_list e = Ok fls -> absent name fls).
  Proof.
    intro Hn. induction es as [|e es IH]; intros acc x He V; cbn [adsorbate_sum].
    - exists acc, []. split; [reflexivity|]. split; [constructor|]. cbn [Rsum]. rewrite Rplus_0_r. split; auto.
      intros ->. split; auto. intros e fls [].
    - destruct (dtheta_elementary name e Hn (He e (or_introl eq_refl))) as (o & E & H). rewrite E. cbn [bind].
      assert (He' : forall e0, In e0 es -> In e0 (s_exprs s)) by (intros; apply He; now right).
      destruct o as [x0|].
      + destruct H as (v & Ev & Q).
        destruct (IH (Some (add_sym acc x0)) (x + v)%R He') as (o & cs & A & B & C & D).
        { destruct acc as [a|]; cbn [add_sym oval] in *; cbn [sev].
          - rewrite V, Ev. reflexivity.
          - rewrite Ev, V. f_equal. ring. }
        exists o, (v :: cs). split; [exact A|]. split; [now constructor|]. split.
        * cbn [Rsum]. replace (x + (v + Rsum cs))%R with (x + v + Rsum cs)%R by ring. exact C.
        * intro Eo. destruct (D Eo) as [X _]. discriminate.
      + destruct H as [Q Ab]. destruct (IH acc x He' V) as (o & cs & A & B & C & D).
        exists o, (0%R :: cs). split; [exact A|]. split; [now constructor|]. split.
        * cbn [Rsum]. replace (x + (0 + Rsum cs))%R with (x + Rsum cs)%R by ring. exact C.
        * intro Eo. destruct (D Eo) as [X Y]. split; auto. intros e0 fls [<-|H0] E0; [auto|]. now apply (Y e0).
  Qed.

  Lemma adsorbate_dtheta_value name : In name (ads s) ->
    exists e x cs, adsorbate_dtheta_sym s (the_symbols s) name = Ok (Some e) /\ sev d e = Ok x /\
      Forall2 (bare_in name) (s_exprs s) cs /\ x = Rsum cs.
  Proof.
    intro Hn. unfold adsorbate_dtheta_sym.
    destruct (adsorbate_sum_value name Hn (s_exprs s) None 0%R (fun e H => H) eq_refl) as (o & cs & A & B & C & D).
    destruct o as [e|].
    - exists e, (0 + Rsum cs)%R, cs. split; [exact A|]. split; [exact C|]. split; auto. ring.
    - exfalso. destruct (D eq_refl) as [_ H].
      destruct (parse_rxns_facts _ _ (proj1 P)) as (M & _ & _ & _ & _ & _ & _ & _ & _ & Q & _).
      apply Q in Hn as (f & (rxn & st & H1 & H2 & H3) & _ & Ef).
      destruct (In_nth_error _ _ H1) as [j Hj].
      assert (Lj : j < length (s_exprs s)) by (rewrite <- (num_rxns s U); apply nth_error_Some; congruence).
      destruct (nth_error_lt (s_exprs s) j _ eq_refl Lj) as [e He].
      destruct (formula_list_at s U j e He) as (fls & En & El). assert (fls = rxn) by congruence. subst.
      apply (H e rxn (nth_error_In _ _ He) El st f H2 H3). auto.
  Qed.

  Lemma dtheta_value : exists es F,
    dtheta_syms s (the_symbols s) false = Ok (map Some es) /\ mapM (sev d) es = Ok F /\
    Forall2 (fun n x => exists cs, Forall2 (bare_in n) (s_exprs s) cs /\ x = Rsum cs) (ads s) F.
  Proof.
    unfold dtheta_syms. change (l_ads (s_lists s)) with (ads s).
    assert (G : forall ns, (forall n, In n ns -> In n (ads s)) -> exists es F,
      mapM (adsorbate_dtheta_sym s (the_symbols s)) ns = Ok (map Some es) /\ mapM (sev d) es = Ok F /\
      Forall2 (fun n x => exists cs, Forall2 (bare_in n) (s_exprs s) cs /\ x = Rsum cs) ns F).
    { induction ns as [|n ns IH]; intro H.
      - exists [], []. repeat split; constructor.
      - destruct IH as (es & F & A & B & C); [intros; apply H; now right|].
        destruct (adsorbate_dtheta_value n (H n (or_introl eq_refl))) as (e & x & cs & E & V & Q & X).
        exists (e :: es), (x :: F). cbn [mapM map]. rewrite E, A, V, B. cbn [bind].
        split; [reflexivity|]. split; [reflexivity|]. constructor; eauto. }
    destruct (G (ads s) (fun n H => H)) as (es & F & A & B & C). exists es, F. rewrite A. auto.
  Qed.
End Steady.

(** Both counts are the same for single adsorbates. *)
Lemma bare_counted name fls rf rr c :
  (forall i n, met_first name fls i n -> n = 1%Z) -> bare_change name fls rf rr c -> counted_change name fls rf rr c.
Proof.
  intros H [[A ->]|[(n & M & ->)|(i & n & M & ->)]].
  - left. auto.
  - right. left. exists n. split; auto. rewrite (H _ _ M). ring.
  - right. right. exists i, n. split; auto. rewrite (H _ _ M). ring.
Qed.
Lemma counted_unique name fls rf rr c c' :
  counted_change name fls rf rr c -> counted_change name fls rf rr c' -> c = c'.
Proof.
  intros [[A ->]|[(n & M & ->)|(i & n & M & ->)]] [[A' ->]|[(n' & M' & ->)|(i' & n' & M' & ->)]]; auto;
    try (exfalso; eapply met_not_absent; eauto; fail);
    destruct (met_first_unique _ _ _ _ _ _ M M') as [E1 E2]; try discriminate; now subst.
Qed.

Section SteadyMain.
  Variable s : setup.
  Variables (y : symbols) (data : dict R * dict R) (T : R) (r : rel_energies) (cvgs : list R).
  Hypothesis U : usable_setup s.
  Hypothesis PS : plain_sites s.
  Hypothesis NL : l_liq (s_lists s) = [].
  Hypothesis HT : (0 < T)%R.
  Hypothesis ER : energies_ready s r.
  Hypothesis Len : length cvgs = length (ads s).
  Hypothesis SY : symbolic s y data.

  Lemma steady_by_sym_eval d es F : subs_dict s y T r (Some data) (Some cvgs) = Ok d ->
    dtheta_syms s y false = Ok (map Some es) -> mapM (sev d) es = Ok F ->
    steady_state_by_sym s y T r (Some data) cvgs = Ok F.
  Proof.
    intros Ed Es V. unfold steady_state_by_sym. rewrite Es. cbn [bind]. rewrite Ed. cbn [bind].
    rewrite <- V. clear. induction es as [|e es IH]; [reflexivity|]. cbn [map mapM]. rewrite IH. reflexivity.
  Qed.

  Lemma steady_by_sym_ok : exists F rfs rrs,
    steady_state_by_sym s y T r (Some data) cvgs = Ok F /\ length F = length (ads s) /\
    rates_by_sym s y T r (Some data) cvgs = Ok (rfs, rrs) /\
    forall i name x, nth_error (ads s) i = Some name -> nth_error F i = Some x ->
    exists cs, length cs = length (s_exprs s) /\ x = Rsum cs /\
      forall j fls rf rr c, nth_error (l_rxns (s_lists s)) j = Some fls ->
        nth_error rfs j = Some rf -> nth_error rrs j = Some rr -> nth_error cs j = Some c ->
        bare_change name fls rf rr c.
  Proof.
    destruct (the_subs s y data T r SY NL U cvgs Len) as (d & Ed & SB).
    destruct (symbolic_inv s y data (proj1 U) SY) as [Ey _].
    destruct (dtheta_value s U T r cvgs d HT ER Len PS NL SB) as (es & F & A & B & C).
    destruct (rate_syms_value s U T r cvgs d HT ER Len PS NL SB) as (rf & rr & rfs & rrs & R1 & R2 & R3 & L1 & L2 & W).
    exists F, rfs, rrs. split; [apply (steady_by_sym_eval d es F); rewrite ?Ey; assumption|].
    split; [now rewrite (Forall2_length _ _ _ C)|]. split.
    { unfold rates_by_sym. rewrite Ey, R1. cbn [bind]. rewrite Ed. cbn [bind]. rewrite R2. cbn [bind]. rewrite R3. reflexivity. }
    intros i name x Hi Hx. destruct (Forall2_at _ _ _ i name C Hi) as (x' & Hx' & cs & Q & Ex).
    assert (x' = x) by congruence. subst x'. exists cs. split; [now rewrite (Forall2_length _ _ _ Q)|].
    split; auto. intros j fls a b c Hf Hrf Hrr Hc.
    assert (Hj : j < length (s_exprs s)).
    { rewrite <- (num_rxns s U). apply nth_error_Some. congruence. }
    destruct (nth_error_lt (s_exprs s) j _ eq_refl Hj) as [e He].
    destruct (formula_list_at s U j e He) as (fls' & En & Ef). assert (fls' = fls) by congruence. subst fls'.
    destruct (Forall2_at _ _ _ j e W He) as (p & Hp & W'). rewrite (nth_error_combine _ _ _ _ _ Hrf Hrr) in Hp.
    injection Hp as <-. cbn [fst snd] in W'.
    destruct (Forall2_at _ _ _ j e Q He) as (c' & Hc' & V). assert (c' = c) by congruence. subst c'.
    now apply V.
  Qed.

  Lemma list_eq_nth {A} (l : list A) : forall l', length l = length l' ->
    (forall i a b, nth_error l i = Some a -> nth_error l' i = Some b -> a = b) -> l = l'.
  Proof.
    induction l as [|a l IH]; intros [|b l'] E H; try discriminate; auto.
    f_equal; [now apply (H 0)|]. apply IH; auto. intros i. apply (H (S i)).
  Qed.

  Lemma steady_single : single s ->
    exists F, steady_state_by_sym s y T r (Some data) cvgs = Ok F /\
      steady_state_function s (Ok (kf_list T r, kr_list T r)) (Some data) cvgs = Ok F.
  Proof.
    intro SG. destruct steady_by_sym_ok as (F & rfs & rrs & A & LF & B & C).
    destruct (rates_by_sym_ok s y data T r SY NL HT ER U PS cvgs Len) as (rfs1 & rrs1 & B1 & L1 & L2 & D1).
    assert (rfs1 = rfs /\ rrs1 = rrs) as [-> ->] by (split; congruence).
    destruct (steady_indexed s U cvgs (kf_list T r) (kr_list T r) Len) as (data' & rfs2 & rrs2 & G & E1 & E2 & E3 & E4 & E5).
    { unfold kf_list. rewrite map_length. apply ER. }
    { unfold kr_list. rewrite map_length, combine_length. destruct ER as [-> ->]. lia. }
    assert (data' = data) by (destruct SY as (cl & _ & _ & H); congruence). subst data'.
    assert (rfs2 = rfs /\ rrs2 = rrs) as [-> ->] by (split; congruence).
    exists F. split; auto. rewrite E3. f_equal. apply list_eq_nth; [congruence|].
    intros i x x' Hx Hx'.
    assert (Li : i < length (ads s)) by (rewrite <- LF; apply nth_error_Some; congruence).
    destruct (nth_error_lt (ads s) i _ eq_refl Li) as [name Hn].
    destruct (C i name x' Hn Hx') as (cs & Lc & -> & Q). destruct (E5 i name x Hn Hx) as (cs' & Lc' & -> & Q').
    f_equal. apply list_eq_nth; [congruence|]. intros j c' c Hc' Hc.
    assert (Lj : j < length (s_exprs s)) by (rewrite <- Lc; apply nth_error_Some; congruence).
    destruct (nth_error_lt (l_rxns (s_lists s)) j _ (num_rxns s U) Lj) as [fls Hf].
    destruct (nth_error_lt rfs j _ L1 Lj) as [a Ha]. destruct (nth_error_lt rrs j _ L2 Lj) as [b Hb].
    apply (counted_unique name fls a b); [now apply (Q' j)|].
    apply bare_counted; [|now apply (Q j)].
    intros k n M. apply (SG name fls k n); auto; eapply nth_error_In; eauto.
  Qed.
End SteadyMain.
