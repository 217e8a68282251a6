(** The accuracy of accepted coverages: lemmas. *)
From Coq Require Import String Ascii List ZArith NArith Bool Arith Reals Relations Lia Lra.
Import ListNotations.
From Verif Require Import PyBase PyBaseFacts Rxn_Model Rxn_Spec Species_Model Species_Spec PyReal MF_Model MF_Spec
  MF_Cover MF_Rate MF_More Whole_Spec Whole_Energy Whole_Rates Whole_Bound Flow_Real Hop_Spec Markov_Proofs Hop_Proofs
  Control_Core Control_Proofs Newton_Model Steady_Model Steady_Spec Steady_Proofs Accuracy_Spec.
Local Open Scope list_scope.
Local Open Scope R_scope.

Lemma close_map {A} (f g : A -> R) l d : (forall a, In a l -> Rabs (f a - g a) <= d) -> close d (map f l) (map g l).
Proof.
  intro H. split; [now rewrite !map_length|]. intros i x y Hx Hy. rewrite nth_error_map in Hx, Hy.
  destruct (nth_error l i) as [a|] eqn:E; [|discriminate]. cbn in Hx, Hy. injection Hx as <-. injection Hy as <-.
  apply H. eapply nth_error_In; eauto.
Qed.
Lemma close_more d d' v w : d <= d' -> close d v w -> close d' v w.
Proof. intros L [A B]. split; [exact A|]. intros i x y Hx Hy. specialize (B i x y Hx Hy). lra. Qed.

Section Accuracy.
  Variable s : setup.
  Hypothesis U : usable_setup s.
  Let P : prepared s := proj1 U.
  Variable l : list (str * str).
  Hypothesis OH : only_hops s l.
  Let ND : NoDup (s_exprs s) := proj2 OH.
  Hypothesis Tot : forall site, In site (sites s) -> 0 <= total s site <= 1.
  Hypothesis Sup : supplied (Rlt 0) s.
  Hypothesis Lk : linked s l.
  Variables kf kr : list R.
  Hypothesis Lf : length kf = length (s_exprs s).
  Hypothesis Lr : length kr = length (s_exprs s).
  Hypothesis Pf : forall a, In a kf -> 0 < a.
  Hypothesis Pr : forall b, In b kr -> 0 < b.

  Lemma accuracy : exists data c0 C, get_data s = Ok data /\ feasible s c0 /\ steady_within s kf kr data 0 c0 /\ 0 <= C /\
    forall c tol, 0 <= tol -> steady_within s kf kr data tol c ->
      close (C * tol) c c0 /\
      (forall nets nets0, net_rates s (Ok (kf, kr)) (Some data) c = Ok nets -> net_rates s (Ok (kf, kr)) (Some data) c0 = Ok nets0 ->
         close (C * tol) nets nets0) /\
      (forall tof tof0, tofs s (Ok (kf, kr)) (Some data) c = Ok tof -> tofs s (Ok (kf, kr)) (Some data) c0 = Ok tof0 ->
         close (C * tol) tof tof0).
  Proof.
    destruct (exactly_one s U l OH kf kr Lf Lr Tot Pf Pr Sup Lk) as (data & c0 & D & Fe & _ & One).
    destruct (proj2 (One c0 (proj1 Fe)) eq_refl) as (F0 & EF0 & Z0).
    destruct (edges_paired s U l OH kf kr Lf Lr (Rlt 0)) as (E & El & Pe & Pair); auto; [apply Rmult_lt_0_compat|lra|].
    destruct (setup_coercive s U l OH Lk E El Pe) as (C & PC & Co).
    set (X := reactions s kf kr) in *.
    set (W := Rsum (map strength E)).
    assert (St : forall e, In e E -> 0 <= strength e) by (intros e He; destruct (Pe e He); unfold strength; lra).
    assert (W0 : 0 <= W) by (apply sum_pos; exact St).
    set (names := l_gas (s_lists s) ++ l_liq (s_lists s)).
    set (G := fun name => Rsum (map (fun x : rxn => Rabs (- IZR (consumption (fst x) name))) X)).
    assert (G0 : forall name, 0 <= G name) by (intro; apply sum_pos; intros; apply Rabs_pos).
    set (T := Rsum (map G names)).
    assert (T0 : 0 <= T) by (apply sum_pos; intros; apply G0).
    assert (CW : 0 <= C * W) by now apply Rmult_le_pos. assert (CWT : 0 <= C * W * T) by now apply Rmult_le_pos.
    exists data, c0, (C + C * W + C * W * T). split; [exact D|]. split; [exact Fe|].
    split. { split; [exact (proj1 Fe)|]. exists F0. split; [exact EF0|]. intros y Hy. rewrite (Z0 y Hy), Rabs_R0. lra. }
    split; [lra|]. intros c tol Ht (Len & F & EF & B).
    destruct (explicit s U ND c kf kr Len Lf Lr) as (d1 & D1 & _ & N1 & S1 & T1).
    assert (d1 = data) by congruence. subst d1.
    destruct (explicit s U ND c0 kf kr (proj1 Fe) Lf Lr) as (d2 & D2 & _ & N2 & S2 & T2).
    assert (d2 = data) by congruence. subst d2. fold X in N1, S1, T1, N2, S2, T2.
    set (v := fun n => coverage s c n - coverage s c0 n).
    assert (Der : forall c' n, In n (ads s) -> derivative s c' X n = Rsum (map (e_change (coverage s c') n) E)).
    { intros c' n Hn. unfold derivative. clear -Pair Hn. induction Pair as [|x e X E H Pair IH]; [reflexivity|].
      cbn [map Rsum]. rewrite IH. f_equal. now apply H. }
    assert (V : forall n, In n (ads s) \/ In n (sites s) -> Rabs (v n) <= C * tol).
    { intros n Hn. apply Co; auto.
      - intros site Hs. unfold v. rewrite Rsum_sub.
        rewrite (states_sum s U c site Len Hs), (states_sum s U c0 site (proj1 Fe) Hs). ring.
      - intros m Hm. rewrite (Rsum_ext _ (fun e => e_change (coverage s c) m e - e_change (coverage s c0) m e)).
        2:{ intros e _. unfold v, e_change, e_net. destruct (str_eqb (e_dst e) m), (str_eqb (e_src e) m); ring. }
        rewrite Rsum_sub, <- (Der c m Hm), <- (Der c0 m Hm).
        assert (Za : derivative s c0 X m = 0).
        { apply Z0. assert (F0 = map (derivative s c0 X) (ads s)) as -> by congruence. now apply in_map. }
        rewrite Za, Rminus_0_r. apply B. assert (F = map (derivative s c X) (ads s)) as -> by congruence. now apply in_map. }
    assert (Net : forall e, In e E -> Rabs (e_net v e) <= C * tol * strength e).
    { intros e He. destruct (Pe e He) as [A1 A2].
      assert (H' : In (e_src e, e_dst e) l).
      { rewrite <- El. apply in_map_iff. exists e. split; auto. unfold e_src, e_dst. now destruct (fst e). }
      destruct (ends_known s U l OH _ _ H') as (_ & _ & P1 & P2). unfold place in P1, P2.
      assert (B1 : Rabs (v (e_src e)) <= C * tol) by (apply V; tauto). assert (B2 : Rabs (v (e_dst e)) <= C * tol) by (apply V; tauto).
      unfold e_net, strength, Rminus. eapply Rle_trans; [apply Rabs_triang|].
      rewrite Rabs_Ropp, !Rabs_mult, (Rabs_pos_eq (fst (snd e))), (Rabs_pos_eq (snd (snd e))) by lra. nra. }
    assert (Nets : forall x, In x X -> Rabs ((fwd s c x - bwd s c x) - (fwd s c0 x - bwd s c0 x)) <= C * W * tol).
    { intros x Hx. assert (exists e, In e E /\ runs_as s x e) as (e & He & Rx & _).
      { clear -Pair Hx. induction Pair as [|x' e X E H Pair IH]; [destruct Hx|]. destruct Hx as [<-|Hx]; [exists e; split; [now left|exact H]|].
        destruct (IH Hx) as (e' & A & Q). exists e'. split; [now right|exact Q]. }
      rewrite !Rx. replace (e_net (coverage s c) e - e_net (coverage s c0) e) with (e_net v e) by (unfold e_net, v; ring).
      eapply Rle_trans; [now apply Net|]. assert (strength e <= W) by (apply (sum_term strength); auto).
      assert (0 <= C * tol) by now apply Rmult_le_pos. nra. }
    assert (Ct : 0 <= C * tol) by now apply Rmult_le_pos. assert (CWt : 0 <= C * W * tol) by now apply Rmult_le_pos.
    assert (CWTt : 0 <= C * W * T * tol) by now apply Rmult_le_pos.
    split; [|split].
    - apply (close_more (C * tol)); [lra|]. split; [now rewrite (proj1 Fe)|]. intros i x y Hx Hy.
      destruct (nth_error (ads s) i) as [n|] eqn:Hn.
      2:{ apply nth_error_None in Hn. assert (i < length c)%nat by (apply nth_error_Some; congruence). lia. }
      rewrite <- (nth_coverage s P c Len i n x Hn Hx), <- (nth_coverage s P c0 (proj1 Fe) i n y Hn Hy). apply (V n). left. eapply nth_error_In; eauto.
    - intros nets nets0 A1 A2. apply (close_more (C * W * tol)); [lra|].
      assert (nets = map (fun x => fwd s c x - bwd s c x) X) as -> by congruence.
      assert (nets0 = map (fun x => fwd s c0 x - bwd s c0 x) X) as -> by congruence. now apply close_map.
    - intros tof tof0 A1 A2. apply (close_more (C * W * T * tol)); [lra|].
      assert (tof = map (turnover s c X) names) as -> by (unfold names; congruence).
      assert (tof0 = map (turnover s c0 X) names) as -> by (unfold names; congruence). apply close_map. intros name Hn. unfold turnover.
      rewrite <- Rsum_sub.
      apply (Rle_trans _ (Rsum (map (fun x : rxn => C * W * tol * Rabs (- IZR (consumption (fst x) name))) X))).
      { apply sum_abs. intros x Hx. rewrite <- Rmult_minus_distr_l, Rabs_mult. specialize (Nets x Hx).
        pose proof (Rabs_pos (- IZR (consumption (fst x) name))). nra. }
      rewrite Rsum_mul. assert (G name <= T) by (apply (sum_term G); auto). change (C * W * tol * G name <= C * W * T * tol).
      replace (C * W * T * tol) with (C * W * tol * T) by ring. now apply Rmult_le_compat_l.
  Qed.

  (** For a search. *)
  Lemma search_accuracy : exists data c0 C, get_data s = Ok data /\ feasible s c0 /\ steady_within s kf kr data 0 c0 /\ 0 <= C /\
    forall I (q : search I) fuel guess a st, q_f q = steady_state_function s (Ok (kf, kr)) (Some data) ->
      get_steady_state_cvgs q fuel guess = (Ok (Some a), st) ->
      exists x, a_coverages a = Some x /\ (length x = length (ads s) -> close (C * q_tolerance q) x c0).
  Proof.
    destruct accuracy as (data & c0 & C & D & Fe & Z & PC & H). exists data, c0, C. repeat (split; [assumption|]).
    intros I q fuel guess a st Eq S.
    apply (search_result q (fun _ => True)) in S; [|intros; exact Logic.I|intros; exact Logic.I].
    destruct S as (_ & x & E & S).
    assert (Wi : residual_within (q_f q) x (q_tolerance q)).
    { destruct S as [[_ W]|((v & A1 & A2 & A3) & _)]; [exact W|]. exists v. split; [exact A1|]. split; [exact A2|].
      intros d Hd. left. auto. }
    exists x. split; [exact E|]. intro Len. destruct Wi as (v & A1 & A2 & A3). rewrite Eq in A1.
    apply H.
    - destruct v as [|d v]; [congruence|]. eapply Rle_trans; [apply Rabs_pos|apply (A3 d); now left].
    - split; [exact Len|]. exists v. auto.
  Qed.
End Accuracy.
