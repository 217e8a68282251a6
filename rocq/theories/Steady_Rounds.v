From Coq Require Import String Ascii List ZArith Bool Arith Reals Lia Lra.
Import ListNotations.
From Verif Require Import PyBase PyBaseFacts PyReal Newton_Spec Steady_Model Steady_Spec Steady_Proofs.
Local Open Scope list_scope.
Local Open Scope nat_scope.

Section Rounds.
  Context {I : Type}.
  Variable q : search I.
  Hypothesis Hcalm : calm q.

  Definition add_trace (st : state) (es : list event) : state :=
    {| coverages := coverages st; error := error st; converged := converged st; trace := trace st ++ es |}.
  Lemma add_nothing : forall st, add_trace st [] = st.
  Proof. intros []. unfold add_trace. cbn. rewrite app_nil_r. reflexivity. Qed.
  Lemma add_add : forall st a b, add_trace (add_trace st a) b = add_trace st (a ++ b).
  Proof. intros. unfold add_trace. cbn. rewrite <- app_assoc. reflexivity. Qed.

  Lemma calls_calm : forall es st, calls q es st = (Ok tt, add_trace st es).
  Proof.
    destruct Hcalm as (_ & _ & _ & _ & _ & HQ & _).
    induction es as [|e es IH]; intro st; cbn [calls]; [rewrite add_nothing; reflexivity|].
    rewrite HQ, IH. change (happen e st) with (add_trace st [e]). rewrite add_add. reflexivity.
  Qed.
  Lemma register_calm : forall ivs ap nt outer st, (forall iv, In iv ivs -> iv <> 0%Z) ->
    register q ap ivs nt outer st
    = (Ok tt, add_trace st (map (fun p => Register (fst p) nt outer)
         (filter (fun p => (Z.of_nat nt mod snd p =? 0)%Z) (combine (seq ap (length ivs)) ivs)))).
  Proof.
    induction ivs as [|iv ivs IH]; intros ap nt outer st HN; cbn [register length seq combine filter map].
    - rewrite add_nothing. reflexivity.
    - destruct (Z.eqb_spec iv 0) as [E|_]; [exfalso; apply (HN iv); [left; reflexivity|exact E]|].
      cbn [snd fst].
      destruct (Z.of_nat nt mod iv =? 0)%Z.
      + rewrite calls_calm. rewrite IH by (intros j Hj; apply HN; right; exact Hj).
        rewrite add_add. reflexivity.
      + rewrite IH by (intros j Hj; apply HN; right; exact Hj). reflexivity.
  Qed.
  Lemma told_calm : forall nt outer st, register q 0 (q_intervals q) nt outer st = (Ok tt, add_trace st (told q nt outer)).
  Proof. intros. apply register_calm. apply Hcalm. Qed.

  Lemma residual_calm : forall x, get_residual (q_f q) x <> Err ZeroDivisionError.
  Proof.
    intro x. unfold get_residual. destruct Hcalm as (H & _). specialize (H x).
    destruct (q_f q x) as [v|e]; cbn [bind]; [destruct v; discriminate|congruence].
  Qed.
  Lemma residual0_calm : forall x, get_residual (q_f0 q) x <> Err ZeroDivisionError.
  Proof.
    intro x. unfold get_residual. destruct Hcalm as (_ & H & _). specialize (H x).
    destruct (q_f0 q x) as [v|e]; cbn [bind]; [destruct v; discriminate|congruence].
  Qed.

  Definition seen (outer nt n : nat) : list event := concat (map (fun nt => told q nt outer) (seq nt n)).

  Lemma undecided_cons : forall nt o os, ~ accepted q nt o -> ~ given_up q nt o -> undecided q (S nt) os ->
    undecided q nt (o :: os).
  Proof.
    intros nt o os H1 H2 H [|k] i E; cbn in E.
    - injection E as <-. rewrite Nat.add_0_r. auto.
    - replace (nt + S k) with (S nt + k) by lia. apply H. exact E.
  Qed.

  Lemma inner_calm : forall k outer nt it st r st', inner q k outer nt it st = (r, st') ->
    match r with
    | Ok true => exists os x e v it', yields (q_next q) it (os ++ [(x, e, v)]) it' /\ undecided q (S nt) os /\
        accepted q (S nt + length os) (x, e, v) /\
        st' = {| coverages := Some x; error := Some e; converged := true;
                 trace := trace st ++ seen outer (S nt) (length os) |}
    | Ok false => exists os it', undecided q (S nt) os /\
        ((yields (q_next q) it os it' /\ exists it2, q_next q it' = Ok (None, it2)) \/
         (exists i, yields (q_next q) it (os ++ [i]) it' /\ given_up q (S nt + length os) i)) /\
        trace st' = trace st ++ seen outer (S nt) (length os) /\ converged st' = converged st
    | Err e => e <> ZeroDivisionError
    end.
  Proof.
    induction k as [|k IH]; intros outer nt it st r st' H; cbn [inner] in H; [inversion H; subst; discriminate|].
    destruct (q_next q it) as [[[[[x e] v]|] it1]|e1] eqn:EN.
    2:{ inversion H; subst. exists [], it. split; [intros [|j] i E; discriminate|].
        split; [left; split; [constructor|eauto]|]. cbn. rewrite app_nil_r. auto. }
    2:{ inversion H; subst. destruct Hcalm as (_ & _ & _ & HN & _). specialize (HN it). congruence. }
    destruct (get_residual (q_f q) x) as [resid|e2] eqn:ER.
    2:{ inversion H; subst. pose proof (residual_calm x). congruence. }
    assert (ST : forall e' es, trace (add_trace (current x e' st) es) = trace st ++ es) by reflexivity.
    assert (GO : forall e', ~ accepted q (S nt) (x, e, v) -> ~ given_up q (S nt) (x, e, v) ->
        (let st0 := current x e' st in
        match register q 0 (q_intervals q) (S nt) outer st0 with
        | (Ok _, st1) => inner q k outer (S nt) it1 st1
        | (Err ex, st1) => (Err ex, st1)
        end) = (r, st') ->
        match r with
    | Ok true => exists os x e v it', yields (q_next q) it (os ++ [(x, e, v)]) it' /\ undecided q (S nt) os /\
        accepted q (S nt + length os) (x, e, v) /\
        st' = {| coverages := Some x; error := Some e; converged := true;
                 trace := trace st ++ seen outer (S nt) (length os) |}
    | Ok false => exists os it', undecided q (S nt) os /\
        ((yields (q_next q) it os it' /\ exists it2, q_next q it' = Ok (None, it2)) \/
         (exists i, yields (q_next q) it (os ++ [i]) it' /\ given_up q (S nt + length os) i)) /\
        trace st' = trace st ++ seen outer (S nt) (length os) /\ converged st' = converged st
    | Err e => e <> ZeroDivisionError
    end).
    { intros e' NA NG G. cbv zeta in G. rewrite told_calm in G. apply IH in G.
      destruct r as [[|]|]; [| |exact G].
      - destruct G as (os & x1 & e1 & v1 & it' & G1 & G2 & G3 & G4).
        exists ((x, e, v) :: os), x1, e1, v1, it'. split; [cbn [app]; econstructor; [exact EN|exact G1]|].
        split; [apply undecided_cons; assumption|]. cbn [length].
        split; [replace (S nt + S (length os)) with (S (S nt) + length os) by lia; exact G3|].
        rewrite G4, ST. unfold seen. cbn [seq map concat]. rewrite <- app_assoc. reflexivity.
      - destruct G as (os & it' & G1 & G2 & G3 & G4).
        exists ((x, e, v) :: os), it'. split; [apply undecided_cons; assumption|]. cbn [length].
        split; [|split].
        + destruct G2 as [(G2 & G5)|(i & G2 & G5)].
          * left. split; [econstructor; [exact EN|exact G2]|exact G5].
          * right. exists i. split; [cbn [app]; econstructor; [exact EN|exact G2]|].
            replace (S nt + S (length os)) with (S (S nt) + length os) by lia. exact G5.
        + rewrite G3, ST. unfold seen. cbn [seq map concat]. rewrite <- app_assoc. reflexivity.
        + exact G4. }
    cbv zeta in H, GO.
    assert (HB : (resid < q_tolerance q)%R <-> residual_below (q_f q) x (q_tolerance q)) by (apply residual_lt; exact ER).
    destruct (negb (q_max q <? S nt) && Rltb e (q_tolerance q)) eqn:B1.
    - apply andb_true_iff in B1. destruct B1 as [B1 B1'].
      apply negb_true_iff in B1. apply Nat.ltb_ge in B1. apply Rltb_iff in B1'.
      destruct (Rltb resid (q_tolerance q)) eqn:B2.
      + apply Rltb_iff in B2. apply HB in B2.
        destruct (lt_zero x) as [[|]|ez] eqn:EZ; inversion H; subst.
        * exists [], it1. split; [intros [|j] i E; discriminate|]. split.
          { right. exists (x, e, v). split; [cbn [app]; econstructor; [exact EN|constructor]|].
            right. split; [exact B1'|]. split; [exact B2|]. apply (proj2 (lt_zero_spec _ _ EZ)). reflexivity. }
          cbn. rewrite app_nil_r. auto.
        * exists [], x, e, v, it1. split; [cbn [app]; econstructor; [exact EN|constructor]|].
          split; [intros [|j] i E; discriminate|]. split.
          { cbn [length]. rewrite Nat.add_0_r. destruct (not_lt_zero _ EZ).
            split; [lia|]. repeat split; assumption. }
          unfold found, seen. cbn. rewrite app_nil_r. reflexivity.
        * destruct x; [|discriminate]. injection EZ as <-. discriminate.
      + apply (GO resid); [| |exact H].
        * intros (_ & _ & A & _). apply HB in A. apply Rltb_iff in A. congruence.
        * intros [A|(_ & A & _)]; [lia|]. apply HB in A. apply Rltb_iff in A. congruence.
    - destruct (q_max q <? S nt) eqn:B2.
      + apply Nat.ltb_lt in B2. inversion H; subst. exists [], it1.
        split; [intros [|j] i E; discriminate|]. split.
        { right. exists (x, e, v). split; [cbn [app]; econstructor; [exact EN|constructor]|]. left. cbn. lia. }
        cbn. rewrite app_nil_r. auto.
      + apply Nat.ltb_ge in B2. cbn [negb andb] in B1.
        assert (NE : ~ (e < q_tolerance q)%R) by (intro A; apply Rltb_iff in A; congruence).
        apply (GO e); [| |exact H].
        * intros (_ & A & _). exact (NE A).
        * intros [A|(A & _)]; [lia|exact (NE A)].
  Qed.

  Lemma outer_rounds : forall k outer c0 st c1 st', converged st = false ->
    outer_loop q k outer c0 st = (Ok c1, st') ->
    exists evs, trace st' = trace st ++ evs /\
      rounds q (trace st) outer c0 evs
        (if converged st' then
           match coverages st', error st' with Some x, Some e => Some (x, e, c1) | _, _ => None end
         else None) /\
      (converged st' = true -> coverages st' <> None /\ error st' <> None).
  Proof.
    induction k as [|k IH]; intros outer c0 st c1 st' HC H; cbn [outer_loop] in H; [discriminate|].
    assert (HG : forall resid, get_residual (q_f q) c0 = Ok resid ->
      (Rleb resid (q_tolerance q) && negb (q_single_pt q) = true <-> good_guess q c0)).
    { intros resid ER. rewrite andb_true_iff, Rleb_iff, (residual_le _ _ _ _ ER), negb_true_iff.
      unfold good_guess. tauto. }
    unfold attempt in H.
    destruct (get_residual (q_f q) c0) as [resid|e] eqn:ER.
    2:{ pose proof (residual_calm c0) as RC. destruct e; try congruence;
        rewrite calls_calm in H; discriminate. }
    specialize (HG resid eq_refl).
    destruct (Rleb resid (q_tolerance q) && negb (q_single_pt q)) eqn:B.
    - pose proof (proj1 HG eq_refl) as GG. cbv zeta in H.
      destruct (q_f q c0) as [v|e] eqn:EF.
      2:{ unfold get_residual in ER. rewrite EF in ER. discriminate. }
      cbn [bind] in H.
      destruct (q_norm q v) as [a|e] eqn:EN; cbn [bind] in H.
      2:{ destruct Hcalm as (_ & _ & HN & _). specialize (HN v).
          destruct e; try congruence; rewrite calls_calm in H; discriminate. }
      destruct (get_residual (q_f0 q) c0) as [b|e] eqn:E0; cbn [bind] in H.
      2:{ pose proof (residual0_calm c0) as RC. destruct e; try congruence;
          rewrite calls_calm in H; discriminate. }
      rewrite calls_calm in H. inversion H; subst.
      eexists. split; [reflexivity|]. split; [|cbn; split; discriminate].
      cbn [converged coverages error add_trace found].
      apply (round_good q (trace st) outer c1 v a b); assumption.
    - assert (NG : ~ good_guess q c0) by (intro G; apply HG in G; congruence).
      match type of H with context[match (if ?a then ?b else ?c) with _ => _ end] =>
        destruct (if a then b else c) as [it|ex] eqn:EI end.
      2:{ destruct (str_eqb (q_rootfinding q) (L "ConstrainedNewton")); [discriminate|].
          destruct (str_eqb (q_rootfinding q) (L "MDNewton")); [discriminate|]. injection EI as <-.
          rewrite calls_calm in H. discriminate. }
      assert (ST : start q c0 it).
      { destruct (str_eqb (q_rootfinding q) (L "ConstrainedNewton")) eqn:E1.
        - injection EI as <-. left. split; [apply str_eqb_eq; exact E1|reflexivity].
        - destruct (str_eqb (q_rootfinding q) (L "MDNewton")) eqn:E2; [|discriminate].
          injection EI as <-. right. split; [apply str_eqb_eq; exact E2|reflexivity]. }
      rewrite calls_calm in H.
      set (st1 := add_trace st (all_plugins q (fun ap => Setup ap outer))) in H.
      destruct (inner q (S (S (q_max q))) outer 0 it st1) as [ri st2] eqn:EN.
      apply inner_calm in EN.
      destruct ri as [[|]|e].
      + destruct EN as (os & x & e & v & it' & G1 & G2 & G3 & G4). subst st2.
        rewrite calls_calm in H. inversion H; subst.
        eexists. split; [cbn; rewrite <- !app_assoc; reflexivity|].
        split; [|cbn; split; discriminate].
        cbn [converged coverages error add_trace].
        apply (round_root q (trace st) outer c1 x e (length os)); [exact NG|].
        exists it, it', os, v. split; [exact ST|]. split; [reflexivity|]. split; [exact G1|]. split; [exact G2|].
        exact G3.
      + destruct EN as (os & it' & G1 & G2 & G3 & G4).
        assert (RF : run_fails q c0 (length os)).
        { exists it, it', os. split; [exact ST|]. split; [reflexivity|]. split; [exact G1|]. exact G2. }
        unfold new_guess in H.
        destruct (q_hybrid q) as [h|] eqn:EH.
        * destruct (h (trace st2) outer) as [c|e] eqn:EHH.
          2:{ assert (e <> ZeroDivisionError).
              { destruct Hcalm as (_ & _ & _ & _ & HH & _). specialize (HH h (trace st2) outer EH). congruence. }
              destruct e; try congruence; rewrite calls_calm in H; discriminate. }
          rewrite calls_calm in H. apply IH in H; [|cbn [converged add_trace happen]; rewrite G4; exact HC].
          destruct H as (evs & E1 & E2 & E3).
          eexists. split.
          { rewrite E1. cbn [trace add_trace happen]. rewrite G3. cbn [trace add_trace st1].
            rewrite <- !app_assoc. reflexivity. }
          split; [|exact E3].
          change ([Hybrid outer] ++ ?l) with (Hybrid outer :: l).
          assert (T1 : trace st ++ each_plugin q (fun ap => Setup ap outer) ++ steps_seen q outer (length os) = trace st2).
          { rewrite G3. cbn [trace add_trace st1]. rewrite <- app_assoc. reflexivity. }
          apply (round_again q (trace st) outer c0 (length os) h c evs); [exact NG|exact RF|exact EH| |].
          { rewrite T1. exact EHH. }
          replace (trace st ++ each_plugin q (fun ap => Setup ap outer) ++ steps_seen q outer (length os) ++
                   Hybrid outer :: each_plugin q (fun ap => Finalize ap (S outer)))
            with (trace (add_trace (happen (Hybrid outer) st2) (all_plugins q (fun ap => Finalize ap (S outer))))).
          { exact E2. }
          cbn [trace add_trace happen]. rewrite <- T1. rewrite <- !app_assoc. reflexivity.
        * rewrite calls_calm in H. inversion H; subst.
          eexists. split; [cbn; rewrite G3; cbn; rewrite <- !app_assoc; reflexivity|].
          cbn [converged add_trace]. rewrite G4. cbn [converged st1 add_trace]. rewrite HC.
          split; [|discriminate].
          apply round_last; assumption.
      + assert (e <> ZeroDivisionError) by exact EN.
        destruct e; try congruence; rewrite calls_calm in H; discriminate.
  Qed.

  Theorem search_rounds : forall fuel c0 c1 r st, q_constrain q c0 = Ok c1 ->
    get_steady_state_cvgs q fuel (Some c0) = (Ok r, st) ->
    rounds q [] 1 c1 (trace st)
      (match r with
       | Some a => match a_coverages a, a_error a with Some x, Some e => Some (x, e, a_guess a) | _, _ => None end
       | None => None
       end) /\
    (forall a, r = Some a -> a_coverages a <> None /\ a_error a <> None).
  Proof.
    intros fuel c0 c1 r st EC H. unfold get_steady_state_cvgs in H. rewrite EC in H.
    destruct (outer_loop q fuel 1 c1 new_state) as [[c2|] st1] eqn:EO; [|discriminate].
    destruct (outer_rounds fuel 1 c1 new_state c2 st1 eq_refl EO) as (evs & E1 & E2 & E3).
    cbn [trace new_state app] in E1. subst evs. cbn [trace new_state] in E2.
    destruct (converged st1).
    - destruct (coverages st1) as [cv|] eqn:EC1; [|discriminate]. destruct (error st1) as [er|] eqn:EE1; [|discriminate].
      inversion H; subst r st. cbn [a_coverages a_error a_guess].
      split; [exact E2|]. intros a EA. injection EA as <-. cbn. split; discriminate.
    - inversion H; subst r st. split; [exact E2|discriminate].
  Qed.
End Rounds.
