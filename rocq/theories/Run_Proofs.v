(** Proofs for C66. *)
From Coq Require Import String Ascii List Arith Bool Lia.
Import ListNotations.
From Verif Require Import PyBase PyBaseFacts Archive_Model Archive_Spec Run_Model Run_Spec.
Local Open Scope list_scope.
Local Open Scope nat_scope.

Section Proofs.
  Context {W C G D X : Type}.
  Variable v : solver W C G D X.

  Lemma truth_false g : truth v g = Ok false <-> nothing_given v g.
  Proof.
    destruct g as [|c|t]; cbn; split; auto; intro H.
    - apply Nat.eqb_eq. destruct (v_len v c =? 0); [auto|discriminate].
    - rewrite H. reflexivity.
  Qed.

  Lemma first_guess_ok a w g b w' : first_guess v a w = (Ok (g, b), w') <-> starts v a w g b w'.
  Proof.
    split.
    - unfold first_guess. intro H. destruct (truth v (a_init a)) as [[|]|e] eqn:T; [| |discriminate].
      + destruct (a_init a) as [|c|t] eqn:A; try discriminate.
        destruct (v_len v c =? v_nads v) eqn:L; [|discriminate]. injection H as <- <- <-.
        apply Nat.eqb_eq in L. apply from_caller; auto. cbn in T. intro Z. rewrite L, Z in T. discriminate.
      + pose proof (proj1 (truth_false _) T) as N. destruct (v_exists v w) eqn:E.
        * unfold restart_guess in H. destruct (v_load v w) as [d|e] eqn:Ld; [|discriminate].
          destruct (dget d (L "steady_state_coverage")) as [c|] eqn:K.
          -- injection H as <- <- <-. eapply from_file; eauto.
          -- destruct (v_ode v w) as [[c|e] w1] eqn:O; [|discriminate]. injection H as <- <- <-. eapply from_ode; eauto.
        * injection H as <- <- <-. now apply from_nothing.
    - intros [c A Le N|c d N E Ld K|c d w1 N E Ld K O|N E]; unfold first_guess, restart_guess.
      + rewrite A. cbn [truth]. rewrite Le. destruct (v_nads v =? 0) eqn:Z; [apply Nat.eqb_eq in Z; contradiction|].
        cbn [negb]. now rewrite Nat.eqb_refl.
      + rewrite (proj2 (truth_false _) N), E, Ld, K. reflexivity.
      + rewrite (proj2 (truth_false _) N), E, Ld, K, O. reflexivity.
      + rewrite (proj2 (truth_false _) N), E. reflexivity.
  Qed.

  Lemma solve_ok a w c w' : solve v a w = (Ok c, w') <-> solved v a w c w'.
  Proof.
    split.
    - unfold solve. intro H. destruct (first_guess v a w) as [[[g b]|e] w1] eqn:F; [|discriminate].
      apply first_guess_ok in F. destruct (a_fsolve a) eqn:FS.
      + destruct (coarse v g (a_energies a) w1) as [[c1|e] w2] eqn:Co; [|discriminate]. injection H as <- <-.
        destruct g as [|c0|t]; try discriminate. eapply by_fsolve; eauto.
      + destruct b.
        * destruct (coarse v g (a_energies a) w1) as [[c1|e] w2] eqn:Co; [|discriminate].
          destruct g as [|c0|t]; try discriminate. eapply by_both; eauto.
        * destruct g as [|c0|t]; try discriminate; [eapply by_hybrid|eapply by_search]; eauto.
    - intros [c0 b w1 c' w2 FS S F|c0 w1 c' w2 FS S F|w1 c' w2 FS S F|c0 w1 c1 w2 c' w3 FS S F1 F2]; unfold solve;
        apply first_guess_ok in S; rewrite S, FS; cbn [coarse search]; try exact F; rewrite ?F, ?F1; auto.
  Qed.

  Lemma solve_err a w e w' : solve v a w = (Err e, w') <-> unsolved v a w e w'.
  Proof.
    split.
    - unfold solve. intro H. destruct (first_guess v a w) as [[[g b]|e1] w1] eqn:F.
      + apply first_guess_ok in F. destruct g as [|c|t].
        * destruct (a_fsolve a) eqn:FS; cbn [coarse search] in H.
          { injection H as <- <-. eapply nothing_to_refine; eauto. }
          destruct b; cbn [coarse search] in H; [injection H as <- <-; eapply nothing_to_refine; eauto|].
          eapply hybrid_fails; eauto.
        * destruct (a_fsolve a) eqn:FS; cbn [coarse search] in H.
          { destruct (v_fsolve v c (a_energies a) w1) as [[c1|e1] w2] eqn:E1; [discriminate|]. injection H as <- <-.
            eapply fsolve_fails; eauto. }
          destruct b; cbn [coarse search] in H.
          { destruct (v_fsolve v c (a_energies a) w1) as [[c1|e1] w2] eqn:E1; [eapply refining_fails; eauto|].
            injection H as <- <-. eapply fsolve_fails; eauto. }
          eapply search_fails; eauto.
        * assert (t = Ok false) as ->. { inversion F; subst. rewrite H0 in H1. exact H1. }
          assert (e = Unsupported /\ w' = w1) as [-> ->]; [|eapply not_modelled; eauto].
          destruct (a_fsolve a); cbn in H; [injection H as <- <-; auto|]. destruct b; injection H as <- <-; auto.
      + injection H as -> ->. unfold first_guess in F.
        destruct (truth v (a_init a)) as [[|]|e1] eqn:T.
        * destruct (a_init a) as [|c|t] eqn:A; [discriminate| |].
          -- destruct (v_len v c =? v_nads v) eqn:Le; [discriminate|]. injection F as <- <-. cbn in T.
             apply (wrong_length _ _ _ c); auto; [|now apply Nat.eqb_neq]. intro Z. rewrite Z in T. discriminate.
          -- injection F as <- <-. cbn in T. apply not_a_sequence. congruence.
        * apply truth_false in T. destruct (v_exists v w) eqn:E; [|discriminate].
          unfold restart_guess in F. destruct (v_load v w) as [d|e1] eqn:Ld.
          -- destruct (dget d (L "steady_state_coverage")) eqn:K; [discriminate|].
             destruct (v_ode v w) as [[c|e1] w1] eqn:O; [discriminate|]. injection F as <- <-. eapply ode_fails; eauto.
          -- injection F as <- <-. now apply file_unreadable.
        * injection F as <- <-. apply no_truth. destruct (a_init a) as [|c|t]; try discriminate. cbn in T. congruence.
    - intros [A|e1 A|c A N Le|e1 N E Ld|d e1 w1 N E Ld K O|c b w1 e1 w2 S O F|b w1 S O|b w1 S|c w1 e1 w2 FS S F|w1 e1 w2 FS S F
             |c w1 c1 w2 e1 w3 FS S F1 F2].
      all: unfold solve; try (apply first_guess_ok in S; rewrite S).
      + unfold first_guess. rewrite A. reflexivity.
      + unfold first_guess. rewrite A. reflexivity.
      + unfold first_guess. rewrite A. cbn [truth]. apply Nat.eqb_neq in N, Le. rewrite N, Le. reflexivity.
      + unfold first_guess, restart_guess. rewrite (proj2 (truth_false _) N), E, Ld. reflexivity.
      + unfold first_guess, restart_guess. rewrite (proj2 (truth_false _) N), E, Ld, K, O. reflexivity.
      + cbn [coarse]. rewrite F. destruct (a_fsolve a); [reflexivity|]. destruct O as [ | -> ]; [discriminate|reflexivity].
      + cbn [coarse]. destruct (a_fsolve a); [reflexivity|]. destruct O as [ | -> ]; [discriminate|reflexivity].
      + cbn [coarse search]. destruct (a_fsolve a); [reflexivity|]. now destruct b.
      + rewrite FS. exact F.
      + rewrite FS. exact F.
      + rewrite FS. cbn [coarse]. rewrite F1. exact F2.
  Qed.

  (** What is kept. *)
  Lemma run_ends a w m o w' m' : run v a w m = (o, w', m') <-> ends v a w m o w' m'.
  Proof.
    split.
    - unfold run. intro H. destruct (solve v a w) as [[c|e] w1] eqn:S.
      2: { apply solve_err in S. injection H as <- <- <-. now apply without_coverages. }
      apply solve_ok in S. unfold evaluate, with_cvgs, with_tofs, with_reversibilities, with_error in H.
      cbn [m_cvgs m_tofs m_reversibilities m_error] in H.
      destruct (v_constants v (a_energies a) w1) as [[[]|e] w2] eqn:E1;
        [|injection H as <- <- <-; eapply without_tofs; eauto; left; auto].
      destruct (v_rates v c (a_energies a) w2) as [[[rf rr]|e] w3] eqn:E2;
        [|injection H as <- <- <-; eapply without_tofs; eauto; right; eauto].
      destruct (v_tofs v c (a_energies a) w3) as [[t|e] w4] eqn:E3;
        [|injection H as <- <- <-; eapply without_tofs; eauto; right; eexists; split; eauto; right; eauto].
      assert (T : tofs_at v a c w1 rf rr t w4) by (exists w2, w3; auto).
      destruct (v_reversibilities v rf rr w4) as [[r|e] w5] eqn:E4;
        [|injection H as <- <- <-; eapply without_reversibilities; eauto].
      destruct (v_error v w5) as [x|e] eqn:E5;
        [|injection H as <- <- <-; eapply without_error; eauto].
      cut (m' = {| m_cvgs := c; m_tofs := Some t; m_reversibilities := Some r; m_error := Some x |} /\
       (a_xrc a = false /\ o = Ok tt /\ w' = w5 \/
       a_xrc a = true /\ a_product a = None /\ o = Err ParameterError /\ w' = w5 \/
       a_xrc a = true /\ exists p, a_product a = Some p /\ v_xrc v p (a_epsilon a) (a_energies a) w5 = (o, w'))).
      { intros [-> Z]. eapply complete; eauto. }
      destruct (a_xrc a).
      + destruct (a_product a) as [p|].
        * destruct (v_xrc v p (a_epsilon a) (a_energies a) w5) as [o1 w6] eqn:E6. injection H as <- <- <-.
          split; [reflexivity|]. right. right. eauto.
        * injection H as <- <- <-. split; [reflexivity|]. right. left. auto.
      + injection H as <- <- <-. split; [reflexivity|]. left. auto.
    - intros [e w1 U|c w1 e w2 S N|c w1 rf rr t w2 e w3 S (u1 & u2 & E1 & E2 & E3) E4|c w1 rf rr t w2 r w3 e S (u1 & u2 & E1 & E2 & E3) E4 E5
             |c w1 rf rr t w2 r w3 x o1 w4 S (u1 & u2 & E1 & E2 & E3) E4 E5 E6]; unfold run.
      + apply solve_err in U. now rewrite U.
      + apply solve_ok in S. rewrite S. unfold evaluate.
        destruct N as [E1|(u & E1 & [E2|([rf rr] & u2 & E2 & E3)])]; rewrite E1; auto; rewrite E2; auto; rewrite E3; auto.
      + apply solve_ok in S. rewrite S. unfold evaluate. rewrite E1, E2, E3, E4. reflexivity.
      + apply solve_ok in S. rewrite S. unfold evaluate. rewrite E1, E2, E3, E4, E5. reflexivity.
      + apply solve_ok in S. rewrite S. unfold evaluate. rewrite E1, E2, E3, E4, E5.
        destruct E6 as [(-> & -> & ->)|[(-> & -> & -> & ->)|(-> & p & -> & ->)]]; reflexivity.
  Qed.

  Lemma refusals a w m :
    (a_init a = Other (Ok true) \/ (exists c, a_init a = Seq c /\ v_len v c <> 0 /\ v_len v c <> v_nads v) ->
       run v a w m = (Err ParameterError, w, m)).
  Proof.
    intros [A|(c & A & N & Le)]; apply run_ends, without_coverages; [now apply not_a_sequence|now apply (wrong_length _ _ _ c)].
  Qed.

  (** Nothing given, no file, and a coarse solution wanted. *)
  Lemma needs_guess a w m : a_init a = NoGuess -> v_exists v w = false -> a_coarse a = true \/ a_fsolve a = true ->
    run v a w m = (Err TypeError, w, m).
  Proof.
    intros A E O. apply run_ends, without_coverages. apply (nothing_to_refine _ _ _ (a_coarse a) w); [|tauto].
    rewrite <- A. apply from_nothing; auto. now rewrite A.
  Qed.

  (** fsolve never sets the error of the solver. *)
  Lemma fsolve_no_error (P : W -> Prop) a w m o w' m' : (forall u, P u -> v_error v u = Err AttributeError) ->
    only_search_changes v P -> P w -> a_fsolve a = true -> run v a w m = (o, w', m') ->
    o <> Ok tt /\ m_error m' = m_error m /\
    (m_reversibilities m' <> m_reversibilities m -> o = Err AttributeError).
  Proof.
    intros PE (P1 & P2 & P3 & P4 & P5 & P6) Pw FS R. apply run_ends in R.
    assert (PS : forall c w1, solved v a w c w1 -> P w1).
    { intros c w1 S. destruct S as [c0 b w1 c' w2 _ S F| | |]; try congruence. eapply P2; [|exact F].
      destruct S; auto. eapply P1; eauto. }
    assert (PT : forall c w1 rf rr t w2, P w1 -> tofs_at v a c w1 rf rr t w2 -> P w2).
    { intros c w1 rf rr t w2 Q (u1 & u2 & E1 & E2 & E3). eauto. }
    destruct R as [e w1 U|c w1 e w2 S N|c w1 rf rr t w2 e w3 S T E4|c w1 rf rr t w2 r w3 e S T E4 E5|c w1 rf rr t w2 r w3 x o1 w4 S T E4 E5 E6];
      cbn [m_error m_reversibilities].
    1-3: split; [discriminate|]; split; [reflexivity|]; congruence.
    - assert (P w3) by eauto. rewrite (PE w3) in E5 by auto. injection E5 as <-. split; [discriminate|]. auto.
    - assert (P w3) by eauto. rewrite (PE w3) in E5 by auto. discriminate.
  Qed.
  Lemma fsolve_attribute (P : W -> Prop) a w m c w1 rf rr t w2 r w3 : (forall u, P u -> v_error v u = Err AttributeError) ->
    only_search_changes v P -> P w -> a_fsolve a = true ->
    solved v a w c w1 -> tofs_at v a c w1 rf rr t w2 -> v_reversibilities v rf rr w2 = (Ok r, w3) ->
    run v a w m = (Err AttributeError, w3, {| m_cvgs := c; m_tofs := Some t; m_reversibilities := Some r; m_error := m_error m |}).
  Proof.
    intros PE OS Pw FS S T E4. apply run_ends. eapply without_error; eauto. apply PE.
    destruct OS as (P1 & P2 & P3 & P4 & P5 & P6). eapply P6; [|exact E4]. destruct T as (u1 & u2 & E1 & E2 & E3).
    eapply P5; [|exact E3]. eapply P4; [|exact E2]. eapply P3; [|exact E1].
    destruct S as [c0 b w1' c' w2' _ S F| | |]; try congruence. eapply P2; [|exact F].
    destruct S; auto. eapply P1; eauto.
  Qed.
End Proofs.

(** Files written by the package do not have the name [run] looks for. *)
Section Restart.
  Context {V B : Type}.
  Variables (dump : dict V -> list B * option exn) (selected : nat -> str -> bool) (path : nat -> str) (opens : str -> bool).
  Definition known (d : dict V) : Prop := forall n x, dget d n = Some x -> In n archived_names.
  Definition good_state (s : Archive_Model.state V B) : Prop :=
    (forall t, known (dicts s t)) /\ forall p bytes, disk s p = Some bytes -> exists d, known d /\ bytes = fst (dump d).

  Lemma step_good s x : good_state s -> (forall t n y, x = Archive t n y -> In n archived_names) ->
    good_state (snd (Archive_Model.step dump selected path opens s x)).
  Proof.
    intros [GD GF] N. destruct x as [t n y|]; [|split; [intros t n y; discriminate|exact GF]].
    specialize (N _ _ _ eq_refl). cbn [Archive_Model.step]. unfold archive.
    destruct (selected t n) eqn:S; [|split; auto].
    assert (K : known (dset (dicts s t) n y)).
    { intros n' x'. rewrite dget_dset. destruct (str_eqb n' n) eqn:Q.
      - apply str_eqb_eq in Q. subst. intros _. exact N.
      - apply (GD t). }
    assert (GD' : forall u, known (dicts (set_dict s t (dset (dicts s t) n y)) u)).
    { intro u. cbn. destruct (u =? t); auto. }
    destruct (dset (dicts s t) n y) as [|e d'] eqn:D; [split; [exact GD'|exact GF]|].
    destruct (opens (path t)); [|split; [exact GD'|exact GF]].
    destruct (dump (e :: d')) as [bytes f] eqn:DD. split; [exact GD'|]. intros p b. cbn.
    destruct (str_eqb p (path t)); [|apply GF]. intro Q. injection Q as <-. exists (e :: d'). now rewrite DD.
  Qed.

  Lemma run_good ops : forall s, good_state s -> by_package ops -> good_state (snd (Archive_Model.run dump selected path opens s ops)).
  Proof.
    induction ops as [|x ops IH]; intros s Gd N; [exact Gd|]. cbn [Archive_Model.run].
    assert (H : good_state (snd (Archive_Model.step dump selected path opens s x))).
    { apply step_good; auto. intros t n y ->. apply (N t n y). now left. }
    destruct (Archive_Model.step dump selected path opens s x) as [r s1]. cbn [snd] in H.
    specialize (IH s1 H (fun t n y I => N t n y (or_intror I))).
    destruct (Archive_Model.run dump selected path opens s1 ops) as [rs s2]. exact IH.
  Qed.

  Lemma file_without_key load s ops p bytes d : faithful dump load -> (forall d, snd (dump d) = None) ->
    (forall t, dicts s t = []) -> (forall p, disk s p = None) -> by_package ops ->
    disk (snd (Archive_Model.run dump selected path opens s ops)) p = Some bytes -> load bytes = Ok d ->
    dget d (L "steady_state_coverage") = None.
  Proof.
    intros F ND D0 F0 N E Ld.
    assert (G0 : good_state s).
    { split; [intros t n x; rewrite D0; discriminate|]. intros q b. rewrite F0. discriminate. }
    destruct (proj2 (run_good ops s G0 N) p bytes E) as (d' & K & ->).
    rewrite (F d' (ND d')) in Ld. injection Ld as <-.
    destruct (dget d' (L "steady_state_coverage")) eqn:Q; auto. apply K in Q. cbn [In archived_names] in Q.
    repeat (destruct Q as [Q|Q]; [discriminate|]). destruct Q.
  Qed.
End Restart.
