(** Solutions of the rate equations are determined by where they start. *)
From Coq Require Import String Ascii List ZArith NArith Bool Arith Reals Lia Lra.
Import ListNotations.
From Verif Require Import PyBase PyBaseFacts Rxn_Model Rxn_Spec Rxn_Proofs Species_Model Species_Spec Species_Proofs
  Species_Matrix PyReal MF_Model MF_Spec MF_Cover MF_Rate MF_More Whole_Spec Whole_Rates Whole_Bound RDeriv
  Flow_Spec Flow_Real Flow_Proofs.
Local Open Scope list_scope.
Local Open Scope R_scope.

Lemma pow_lip b m : 0 <= b -> exists K, 0 <= K /\ forall p q, Rabs p <= b -> Rabs q <= b ->
  Rabs (p ^ m - q ^ m) <= K * Rabs (p - q).
Proof.
  intro Pb. induction m as [|m (K & PK & HK)].
  - exists 0. split; [lra|]. intros p q _ _. cbn. rewrite Rminus_diag_eq, Rabs_R0 by reflexivity. lra.
  - exists (b * K + b ^ m). pose proof (pow_le b m Pb) as Pm. split; [nra|]. intros p q Hp Hq. cbn [pow].
    replace (p * p ^ m - q * q ^ m) with (p * (p ^ m - q ^ m) + (p - q) * q ^ m) by ring.
    apply (Rle_trans _ _ _ (Rabs_triang _ _)). rewrite !Rabs_mult, Rmult_plus_distr_r. specialize (HK p q Hp Hq).
    apply Rplus_le_compat.
    + rewrite Rmult_assoc. apply Rmult_le_compat; auto; apply Rabs_pos.
    + rewrite Rmult_comm. apply Rmult_le_compat_r; [apply Rabs_pos|]. rewrite <- RPow_abs. apply pow_incr.
      split; [apply Rabs_pos|auto].
Qed.

Section Lipschitz.
  Variable s : setup.
  Hypothesis U : usable_setup s.
  Let N := sites s ++ ads s.
  Variable B : R.
  Hypothesis PB : 0 <= B.
  Let fine (v : list R) : Prop := length v = length (ads s) /\ forall n, In n N -> Rabs (coverage s v n) <= B.
  Let gap (v w : list R) : R := Rsum (map (fun n => Rabs (coverage s v n - coverage s w n)) (ads s)).

  Lemma gap_pos v w : 0 <= gap v w.
  Proof. apply sum_pos. intros; apply Rabs_pos. Qed.

  Lemma covered_gap site names : forall v w, length v = length names -> length w = length names ->
    Rabs (covered site names v - covered site names w) <= Rsum (map (fun p => Rabs (fst p - snd p)) (combine v w)).
  Proof.
    induction names as [|n names IH]; intros [|x v] [|y w] Lv Lw; try discriminate; cbn [covered combine map Rsum fst snd].
    - rewrite Rminus_diag_eq, Rabs_R0 by reflexivity. lra.
    - cbn in Lv, Lw. specialize (IH v w ltac:(lia) ltac:(lia)).
      set (cv := covered site names v) in *. set (cw := covered site names w) in *.
      replace ((if str_eqb (site_tag n) site then x else 0) + cv - ((if str_eqb (site_tag n) site then y else 0) + cw))
        with ((if str_eqb (site_tag n) site then x - y else 0) + (cv - cw)) by (destruct (str_eqb (site_tag n) site); ring).
      apply (Rle_trans _ _ _ (Rabs_triang _ _)). apply Rplus_le_compat; auto.
      destruct (str_eqb (site_tag n) site); [lra|]. rewrite Rabs_R0. apply Rabs_pos.
  Qed.

  Lemma gap_combine v w : length v = length (ads s) -> length w = length (ads s) ->
    Rsum (map (fun p => Rabs (fst p - snd p)) (combine v w)) = gap v w.
  Proof.
    intros Lv Lw.
    assert (G : forall (f g : str -> R) l, Rsum (map (fun p => Rabs (fst p - snd p)) (combine (map f l) (map g l)))
       = Rsum (map (fun n => Rabs (f n - g n)) l)).
    { intros f g l. induction l as [|n l IH]; cbn [map combine Rsum fst snd]; [reflexivity|]. now rewrite IH. }
    unfold gap. rewrite <- (G (coverage s v) (coverage s w) (ads s)).
    now rewrite (coverages_list s (proj1 U) v Lv), (coverages_list s (proj1 U) w Lw).
  Qed.

  Lemma gap_one v w n : length v = length (ads s) -> length w = length (ads s) -> In n N ->
    Rabs (coverage s v n - coverage s w n) <= gap v w.
  Proof.
    intros Lv Lw H. apply in_app_or in H as [H|H].
    - rewrite (site_coverage s (proj1 U) v Lv n H), (site_coverage s (proj1 U) w Lw n H), <- (gap_combine v w Lv Lw).
      replace (total s n - covered n (ads s) v - (total s n - covered n (ads s) w))
        with (- (covered n (ads s) v - covered n (ads s) w)) by ring.
      rewrite Rabs_Ropp. now apply covered_gap.
    - apply (sum_term (fun n => Rabs (coverage s v n - coverage s w n))); auto. intros; apply Rabs_pos.
  Qed.

  Lemma activity_gap st f v w : end_state s st -> In f st -> length v = length (ads s) -> length w = length (ads s) ->
    Rabs (activity s v f - activity s w f) <= gap v w.
  Proof.
    intros H I Lv Lw. destruct (surface_dec (f_site f)) as [S|S].
    - rewrite !(surface_activity s) by auto. apply gap_one; auto. now apply (surface_name s U st).
    - assert (activity s v f = activity s w f) as ->.
      { unfold activity. destruct (str_eqb (f_site f) (L "g")) eqn:E1; [reflexivity|].
        destruct (str_eqb (f_site f) (L "l")) eqn:E2; [reflexivity|].
        exfalso. apply S. split; intro E; rewrite E in *; discriminate. }
      rewrite Rminus_diag_eq, Rabs_R0 by reflexivity. apply gap_pos.
  Qed.

  Lemma mass_action_gap st k : end_state s st -> exists K, 0 <= K /\ forall v w, fine v -> fine w ->
    Rabs (mass_action s v k st - mass_action s w k st) <= K * gap v w.
  Proof.
    intro H. destruct (activity_bound s U B PB st H) as (b & Pb & Hb).
    assert (G : forall l, incl l st -> exists K M, 0 <= K /\ 0 <= M /\ forall v w, fine v -> fine w ->
      Rabs (mass_action s v k l) <= M /\ Rabs (mass_action s v k l - mass_action s w k l) <= K * gap v w).
    { induction l as [|f l IH]; intro I; cbn [mass_action].
      - exists 0, (Rabs k). split; [lra|]. split; [apply Rabs_pos|]. intros v w _ _. split; [lra|].
        rewrite Rminus_diag_eq, Rabs_R0 by reflexivity. lra.
      - destruct IH as (K & M & PK & PM & HK); [intros y Hy; apply I; now right|].
        set (m := Z.to_nat (f_stoich f)). destruct (pow_lip b m Pb) as (Kp & PKp & HKp).
        pose proof (pow_le b m Pb) as Pm. exists (Kp * M + b ^ m * K), (b ^ m * M).
        split; [nra|]. split; [nra|]. intros v w Fv Fw. destruct (HK v w Fv Fw) as [H1 H2].
        assert (If : In f st) by (apply I; now left).
        pose proof (Hb v f Fv If) as Bv. pose proof (Hb w f Fw If) as Bw. specialize (HKp _ _ Bv Bw).
        pose proof (activity_gap st f v w H If (proj1 Fv) (proj1 Fw)) as Ga. pose proof (gap_pos v w) as Pg.
        assert (Q : forall u, fine u -> Rabs (activity s u f ^ m) <= b ^ m).
        { intros u Fu. rewrite <- RPow_abs. apply pow_incr. split; [apply Rabs_pos|auto]. }
        split; [rewrite Rabs_mult; apply Rmult_le_compat; auto; apply Rabs_pos|].
        set (p := activity s v f ^ m) in *. set (q := activity s w f ^ m) in *.
        set (x := mass_action s v k l) in *. set (y := mass_action s w k l) in *.
        replace (p * x - q * y) with ((p - q) * x + q * (x - y)) by ring.
        apply (Rle_trans _ _ _ (Rabs_triang _ _)). rewrite !Rabs_mult, Rmult_plus_distr_r. apply Rplus_le_compat.
        + replace (Kp * M * gap v w) with (Kp * gap v w * M) by ring.
          apply Rmult_le_compat; auto; try apply Rabs_pos. apply (Rle_trans _ _ _ HKp). now apply Rmult_le_compat_l.
        + rewrite Rmult_assoc. apply Rmult_le_compat; auto; try apply Rabs_pos. exact (Q w Fw). }
    destruct (G st (incl_refl _)) as (K & M & PK & _ & HK). exists K. split; auto. intros v w Fv Fw. now apply HK.
  Qed.

  Variables kf kr : list R.

  Lemma derivative_gap : exists K, 0 <= K /\ forall v w n, fine v -> fine w -> In n (ads s) ->
    Rabs (derivative s v (reactions s kf kr) n - derivative s w (reactions s kf kr) n) <= K * gap v w.
  Proof.
    assert (One : forall n x, In (fst x) (l_rxns (s_lists s)) -> exists K, 0 <= K /\ forall v w, fine v -> fine w ->
      Rabs (counted n (fst x) (fwd s v x) (bwd s v x) - counted n (fst x) (fwd s w x) (bwd s w x)) <= K * gap v w).
    { intros n x Hx. assert (S1 : end_state s (begins (fst x))) by (exists (fst x); auto).
      assert (S2 : end_state s (ends (fst x))) by (exists (fst x); auto).
      destruct (mass_action_gap _ (fst (snd x)) S1) as (K1 & P1 & H1). destruct (mass_action_gap _ (snd (snd x)) S2) as (K2 & P2 & H2).
      assert (C : exists c, forall rf rr, counted n (fst x) rf rr = c * (rf - rr)).
      { unfold counted. destruct (find_in_states n 0 (fst x)) as [[[|i] m]|].
        - exists (- IZR m). intros. ring.
        - exists (IZR m). intros. ring.
        - exists 0. intros. ring. }
      destruct C as [c C]. exists (Rabs c * (K1 + K2)). split; [apply Rmult_le_pos; [apply Rabs_pos|lra]|].
      intros v w Fv Fw. rewrite !C. specialize (H1 v w Fv Fw). specialize (H2 v w Fv Fw).
      fold (fwd s v x) in H1. fold (fwd s w x) in H1. fold (bwd s v x) in H2. fold (bwd s w x) in H2.
      replace (c * (fwd s v x - bwd s v x) - c * (fwd s w x - bwd s w x))
        with (c * ((fwd s v x - fwd s w x) + - (bwd s v x - bwd s w x))) by ring.
      rewrite Rabs_mult, Rmult_assoc. apply Rmult_le_compat_l; [apply Rabs_pos|].
      apply (Rle_trans _ _ _ (Rabs_triang _ _)). rewrite Rabs_Ropp. lra. }
    assert (All : forall n, exists K, 0 <= K /\ forall v w, fine v -> fine w ->
      Rabs (derivative s v (reactions s kf kr) n - derivative s w (reactions s kf kr) n) <= K * gap v w).
    { intro n. unfold derivative. assert (forall x, In x (reactions s kf kr) -> In (fst x) (l_rxns (s_lists s))) as Hr
        by (intros x Hx; now destruct (reactions_In _ _ _ _ Hx)).
      induction (reactions s kf kr) as [|x X IH]; cbn [map Rsum].
      - exists 0. split; [lra|]. intros. rewrite Rminus_diag_eq, Rabs_R0 by reflexivity. lra.
      - destruct IH as (K & PK & HK); [intros; apply Hr; now right|]. destruct (One n x (Hr x (or_introl eq_refl))) as (K' & PK' & HK').
        exists (K + K'). split; [lra|]. intros v w Fv Fw. specialize (HK v w Fv Fw). specialize (HK' v w Fv Fw).
        assert (Q : forall a b c d k k', Rabs (a - b) <= k -> Rabs (c - d) <= k' -> Rabs (c + a - (d + b)) <= k + k').
        { intros a b c d k k' A C. replace (c + a - (d + b)) with ((c - d) + (a - b)) by ring.
          pose proof (Rabs_triang (c - d) (a - b)). lra. }
        rewrite Rmult_plus_distr_r. now apply Q. }
    assert (G : forall l, exists K, 0 <= K /\ forall v w n, fine v -> fine w -> In n l ->
      Rabs (derivative s v (reactions s kf kr) n - derivative s w (reactions s kf kr) n) <= K * gap v w).
    { induction l as [|n l (K & PK & HK)]; [exists 0; split; [lra|intros ? ? ? _ _ []]|].
      destruct (All n) as (K' & PK' & HK'). exists (K + K'). split; [lra|]. intros v w m Fv Fw [<-|Hm];
        pose proof (Rmult_le_pos _ _ PK (gap_pos v w)); pose proof (Rmult_le_pos _ _ PK' (gap_pos v w)); rewrite Rmult_plus_distr_r;
        [specialize (HK' v w Fv Fw)|specialize (HK v w m Fv Fw Hm)]; lra. }
    apply G.
  Qed.
End Lipschitz.

Section Unique.
  Variable s : setup.
  Hypothesis U : usable_setup s.
  Hypothesis ND : NoDup (s_exprs s).
  Variables kf kr : list R.
  Hypothesis Lf : length kf = length (s_exprs s).
  Hypothesis Lr : length kr = length (s_exprs s).
  Variable T : R.

  (** Coverages on a finite stretch of time are bounded. *)
  Lemma site_speed_exists th : solution s kf kr T th -> forall n, In n (sites s ++ ads s) -> exists x', forall t, 0 <= t <= T ->
    derivable_pt_lim (fun u => coverage s (pad s (th u)) n) t (x' t).
  Proof.
    intros Sol n Hn. apply in_app_or in Hn as [Hn|Ha].
    - set (on := fun p : str * nat => str_eqb (site_tag (fst p)) n).
      exists (fun t => 0 - Rsum (map (fun p => if on p then derivative s (th t) (reactions s kf kr) (fst p) else 0)
                                       (combine (ads s) (seq 0 (length (ads s)))))).
      intros t Ht. apply (d_ext (fun u => total s n - Rsum (map (fun p => if on p then nth (snd p) (th u) 0 else 0)
                                       (combine (ads s) (seq 0 (length (ads s))))))).
      { intro u. rewrite (site_coverage s (proj1 U) _ (pad_length s _) n Hn). unfold pad.
        now rewrite covered_combine by now rewrite seq_length. }
      apply (d_minus (fun _ => total s n)); [apply d_const|].
      apply (d_sum (fun p u => if on p then nth (snd p) (th u) 0 else 0)). intros p Hp.
      destruct (combine_seq _ _ _ Hp) as (i & E & Hi). rewrite Nat.add_0_l in E.
      destruct (on p); [|apply d_const]. rewrite E. now apply (change s U ND kf kr Lf Lr T).
    - exists (fun t => derivative s (th t) (reactions s kf kr) n). intros t Ht.
      destruct (ads_index s U th n Ha) as (i & Hi & _ & E). cbv beta in E.
      apply (d_ext (fun u => nth i (th u) 0)); [intro u; now rewrite E|]. now apply (change s U ND kf kr Lf Lr T).
  Qed.

  Lemma solution_bounded th : solution s kf kr T th -> exists B, 0 <= B /\
    forall n t, In n (sites s ++ ads s) -> 0 <= t <= T -> Rabs (coverage s (th t) n) <= B.
  Proof.
    intro Sol. assert (G : forall l, incl l (sites s ++ ads s) -> exists B, 0 <= B /\
      forall n t, In n l -> 0 <= t <= T -> Rabs (coverage s (th t) n) <= B).
    { induction l as [|n l IH]; intro I; [exists 0; split; [lra|intros ? ? []]|].
      destruct IH as (B & PB & HB); [intros y Hy; apply I; now right|].
      destruct (site_speed_exists th Sol n (I n (or_introl eq_refl))) as [x' D].
      destruct (bounded_on _ x' T D) as (B' & PB' & HB'). exists (B + B'). split; [lra|].
      intros m t [<-|Hm] Ht; [specialize (HB' t Ht)|specialize (HB m t Hm Ht); lra].
      rewrite (pad_same s (th t)) in HB' by now apply Sol. lra. }
    apply G, incl_refl.
  Qed.

  Lemma unique th th' t : solution s kf kr T th -> solution s kf kr T th' -> th 0 = th' 0 -> 0 <= t <= T -> th t = th' t.
  Proof.
    intros Sol Sol' E0 Ht. destruct (solution_bounded th Sol) as (B1 & PB1 & HB1). destruct (solution_bounded th' Sol') as (B2 & PB2 & HB2).
    assert (PB : 0 <= B1 + B2) by lra. destruct (derivative_gap s U (B1 + B2) PB kf kr) as (K & PK & HK).
    set (x := fun n u => coverage s (pad s (th u)) n). set (y := fun n u => coverage s (pad s (th' u)) n).
    assert (Xn : forall n u, 0 <= u <= T -> x n u = coverage s (th u) n).
    { intros n u Hu. unfold x. rewrite pad_same; [reflexivity|]. now apply Sol. }
    assert (Yn : forall n u, 0 <= u <= T -> y n u = coverage s (th' u) n).
    { intros n u Hu. unfold y. rewrite pad_same; [reflexivity|]. now apply Sol'. }
    set (V := fun u => Rsum (map (fun n => (x n u - y n u) * (x n u - y n u)) (ads s))).
    set (d := fun n u => derivative s (th u) (reactions s kf kr) n - derivative s (th' u) (reactions s kf kr) n).
    set (V' := fun u => Rsum (map (fun n => d n u * (x n u - y n u) + (x n u - y n u) * d n u) (ads s))).
    assert (D : V t <= V 0 * exp (2 * K * INR (length (ads s)) * t)).
    { apply (decays V V' (2 * K * INR (length (ads s))) T); auto. intros u Hu. split.
      - apply (d_sum (fun n w => (x n w - y n w) * (x n w - y n w))). intros n Hn.
        assert (E : derivable_pt_lim (fun w => x n w - y n w) u (d n u)).
        { apply (d_minus (x n) (y n)).
          - destruct (ads_index s U th n Hn) as (i & Hi & _ & E). apply (d_ext (fun u => nth i (th u) 0)); [intro w; now rewrite <- E|].
            now apply (change s U ND kf kr Lf Lr T).
          - destruct (ads_index s U th' n Hn) as (i & Hi & _ & E). apply (d_ext (fun u => nth i (th' u) 0)); [intro w; now rewrite <- E|].
            now apply (change s U ND kf kr Lf Lr T). }
        now apply (d_mult (fun w => x n w - y n w) (fun w => x n w - y n w)).
      - set (S := Rsum (map (fun n => Rabs (x n u - y n u)) (ads s))).
        apply (Rle_trans _ (Rsum (map (fun n => 2 * K * S * Rabs (x n u - y n u)) (ads s)))).
        + apply sum_le. intros n Hn.
          assert (Q : Rabs (d n u) <= K * S).
          { unfold S. rewrite (map_ext_in (fun n => Rabs (x n u - y n u)) (fun n => Rabs (coverage s (th u) n - coverage s (th' u) n)))
              by (intros; now rewrite Xn, Yn).
            apply HK; auto.
            - split; [now apply Sol|]. intros m Hm. specialize (HB1 m u Hm Hu). lra.
            - split; [now apply Sol'|]. intros m Hm. specialize (HB2 m u Hm Hu). lra. }
          replace (d n u * (x n u - y n u) + (x n u - y n u) * d n u) with (2 * (d n u * (x n u - y n u))) by ring.
          pose proof (Rle_abs (d n u * (x n u - y n u))) as A. rewrite Rabs_mult in A.
          pose proof (Rabs_pos (x n u - y n u)). nra.
        + rewrite sum_scal. fold S. pose proof (sum_square (fun n => Rabs (x n u - y n u)) (ads s)) as Q. cbv beta in Q. fold S in Q.
          rewrite (map_ext (fun a => Rabs (x a u - y a u) * Rabs (x a u - y a u)) (fun a => (x a u - y a u) * (x a u - y a u))) in Q
            by (intro a; rewrite <- Rabs_mult; apply Rabs_right, Rle_ge, Rle_0_sqr).
          fold (V u) in Q. replace (2 * K * S * S) with (2 * K * (S * S)) by ring. rewrite (Rmult_assoc (2 * K)).
          apply Rmult_le_compat_l; [lra|exact Q]. }
    assert (V 0 = 0) as Z0.
    { apply sum_zero. intros n Hn. unfold x, y. rewrite E0. ring. }
    rewrite Z0, Rmult_0_l in D.
    assert (G : forall n, In n (ads s) -> coverage s (th t) n = coverage s (th' t) n).
    { intros n Hn. rewrite <- Xn, <- Yn by auto.
      assert ((x n t - y n t) * (x n t - y n t) <= V t).
      { apply (sum_term (fun n => (x n t - y n t) * (x n t - y n t))); auto. intros; apply Rle_0_sqr. }
      assert (x n t - y n t = 0); [|lra]. nra. }
    transitivity (map (coverage s (th t)) (ads s)); [symmetry; apply (coverages_list s (proj1 U)); now apply Sol|].
    transitivity (map (coverage s (th' t)) (ads s)); [now apply map_ext_in|apply (coverages_list s (proj1 U)); now apply Sol'].
  Qed.
End Unique.
