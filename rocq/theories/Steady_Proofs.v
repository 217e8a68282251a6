From Coq Require Import String Ascii List ZArith Bool Arith Reals Lia Lra.
Import ListNotations.
From Verif Require Import PyBase PyBaseFacts PyReal Newton_Spec Steady_Model Steady_Spec.
Local Open Scope list_scope.
Local Open Scope nat_scope.

Lemma Rltb_iff : forall x y, Rltb x y = true <-> (x < y)%R.
Proof. intros x y. unfold Rltb. destruct (Rlt_dec x y); split; try tauto; discriminate. Qed.
Lemma Rleb_iff : forall x y, Rleb x y = true <-> (x <= y)%R.
Proof. intros x y. unfold Rleb. destruct (Rle_dec x y); split; try tauto; discriminate. Qed.

Lemma fold_max_le : forall l x b, (fold_left Rmax l x <= b)%R <-> ((x <= b)%R /\ forall d, In d l -> (d <= b)%R).
Proof.
  induction l as [|a l IH]; intros x b; cbn [fold_left].
  - split; [intro H; split; [exact H|contradiction]|tauto].
  - rewrite IH. split.
    + intros [H K]. pose proof (Rmax_l x a). pose proof (Rmax_r x a). split; [lra|].
      intros d [<-|Hd]; [lra|auto].
    + intros [H K]. split; [apply Rmax_lub; [exact H|apply K; left; reflexivity]|].
      intros d Hd. apply K. right. exact Hd.
Qed.
Lemma fold_max_lt : forall l x b, (fold_left Rmax l x < b)%R <-> ((x < b)%R /\ forall d, In d l -> (d < b)%R).
Proof.
  induction l as [|a l IH]; intros x b; cbn [fold_left].
  - split; [intro H; split; [exact H|contradiction]|tauto].
  - rewrite IH. split.
    + intros [H K]. pose proof (Rmax_l x a). pose proof (Rmax_r x a). split; [lra|].
      intros d [<-|Hd]; [lra|auto].
    + intros [H K]. split; [apply Rmax_lub_lt; [exact H|apply K; left; reflexivity]|].
      intros d Hd. apply K. right. exact Hd.
Qed.

Lemma residual_le : forall f x r b, get_residual f x = Ok r -> ((r <= b)%R <-> residual_within f x b).
Proof.
  intros f x r b H. unfold get_residual in H. destruct (f x) as [v|] eqn:E; [|discriminate]. cbn [bind] in H.
  destruct v as [|a v]; [discriminate|]. cbn [map py_max] in H. injection H as <-.
  rewrite fold_max_le. unfold residual_within. rewrite E. split.
  - intros [H K]. exists (a :: v). split; [reflexivity|]. split; [discriminate|].
    intros d [<-|Hd]; [exact H|]. apply K. apply in_map. exact Hd.
  - intros (w & EW & _ & K). injection EW as <-. split; [apply K; left; reflexivity|].
    intros d Hd. apply in_map_iff in Hd. destruct Hd as (y & <- & Hy). apply K. right. exact Hy.
Qed.
Lemma residual_lt : forall f x r b, get_residual f x = Ok r -> ((r < b)%R <-> residual_below f x b).
Proof.
  intros f x r b H. unfold get_residual in H. destruct (f x) as [v|] eqn:E; [|discriminate]. cbn [bind] in H.
  destruct v as [|a v]; [discriminate|]. cbn [map py_max] in H. injection H as <-.
  rewrite fold_max_lt. unfold residual_below. rewrite E. split.
  - intros [H K]. exists (a :: v). split; [reflexivity|]. split; [discriminate|].
    intros d [<-|Hd]; [exact H|]. apply K. apply in_map. exact Hd.
  - intros (w & EW & _ & K). injection EW as <-. split; [apply K; left; reflexivity|].
    intros d Hd. apply in_map_iff in Hd. destruct Hd as (y & <- & Hy). apply K. right. exact Hy.
Qed.
Lemma below_within : forall f x b, residual_below f x b -> residual_within f x b.
Proof.
  intros f x b (v & E & NE & H). exists v. split; [exact E|]. split; [exact NE|].
  intros d Hd. specialize (H d Hd). lra.
Qed.

Lemma lt_zero_spec : forall x b, lt_zero x = Ok b ->
  x <> [] /\ (b = true <-> exists c, In c x /\ (c < 0)%R).
Proof.
  intros x b H. destruct x as [|a x]; [discriminate|]. cbn [lt_zero] in H.
  assert (EB : b = existsb (fun c => Rltb c 0) (a :: x)) by congruence.
  split; [discriminate|]. rewrite EB, existsb_exists. split.
  - intros (c & Hc & K). exists c. split; [exact Hc|]. apply Rltb_iff. exact K.
  - intros (c & Hc & K). exists c. split; [exact Hc|]. apply Rltb_iff. exact K.
Qed.
Lemma not_lt_zero : forall x, lt_zero x = Ok false -> x <> [] /\ non_negative x.
Proof.
  intros x H. destruct (lt_zero_spec _ _ H) as [N [_ K]]. split; [exact N|].
  intros c Hc. destruct (Rle_dec 0 c) as [G|G]; [exact G|].
  exfalso. assert (false = true) by (apply K; exists c; split; [exact Hc|lra]). discriminate.
Qed.

Section Facts.
  Context {I : Type}.
  Variable q : search I.

  Lemma calls_facts : forall es st r st', calls q es st = (r, st') ->
    coverages st' = coverages st /\ error st' = error st /\ converged st' = converged st.
  Proof.
    induction es as [|e es IH]; intros st r st' H; cbn [calls] in H; [inversion H; subst; auto|].
    destruct (q_call q (trace st) e); [inversion H; subst; auto|].
    apply IH in H. exact H.
  Qed.
  Lemma register_facts : forall ivs ap nt outer st r st', register q ap ivs nt outer st = (r, st') ->
    coverages st' = coverages st /\ error st' = error st /\ converged st' = converged st.
  Proof.
    induction ivs as [|iv ivs IH]; intros ap nt outer st r st' H; cbn [register] in H;
      [inversion H; subst; auto|].
    destruct (iv =? 0)%Z; [inversion H; subst; auto|].
    destruct (Z.of_nat nt mod iv =? 0)%Z; [|eauto].
    destruct (calls q [Register ap nt outer] st) as [[u|e] st1] eqn:E.
    - apply calls_facts in E. apply IH in H. intuition congruence.
    - inversion H; subst. apply calls_facts in E. exact E.
  Qed.

  (** The result of the inner loop, whatever happens on the way. *)
  Lemma inner_found : forall k outer nt it st r st',
    inner q k outer nt it st = (r, st') ->
    match r with
    | Ok true => exists x e, coverages st' = Some x /\ error st' = Some e /\ converged st' = true /\
                   residual_below (q_f q) x (q_tolerance q) /\ non_negative x /\
                   exists os it' v, yields (q_next q) it (os ++ [(x, e, v)]) it'
    | _ => converged st' = converged st
    end.
  Proof.
    induction k as [|k IH]; intros outer nt it st r st' H; cbn [inner] in H; [inversion H; subst; reflexivity|].
    destruct (q_next q it) as [[[[[x e] v]|] it1]|e1] eqn:EN; try (inversion H; subst; reflexivity).
    destruct (get_residual (q_f q) x) as [resid|e2] eqn:ER; [|inversion H; subst; reflexivity].
    assert (GO : forall e', (let st0 := current x e' st in
        match register q 0 (q_intervals q) (S nt) outer st0 with
        | (Ok _, st1) => inner q k outer (S nt) it1 st1
        | (Err ex, st1) => (Err ex, st1)
        end) = (r, st') ->
        match r with
        | Ok true => exists x e, coverages st' = Some x /\ error st' = Some e /\ converged st' = true /\
                   residual_below (q_f q) x (q_tolerance q) /\ non_negative x /\
                   exists os it' v, yields (q_next q) it (os ++ [(x, e, v)]) it'
        | _ => converged st' = converged st
        end).
    { intros e' G. cbv zeta in G.
      destruct (register q 0 (q_intervals q) (S nt) outer (current x e' st)) as [[u|ex] st1] eqn:EG.
      - apply register_facts in EG. destruct EG as (_ & _ & EG). cbn in EG.
        apply IH in G. destruct r as [[|]|].
        + destruct G as (x1 & e1 & G1 & G2 & G3 & G4 & G5 & os & it' & v' & G6).
          exists x1, e1. repeat split; try assumption.
          exists ((x, e, v) :: os), it', v'. cbn [app]. econstructor; [exact EN|exact G6].
        + congruence.
        + congruence.
      - apply register_facts in EG. destruct EG as (_ & _ & EG). cbn in EG. inversion G; subst. exact EG. }
    cbv zeta in H, GO.
    destruct (negb (q_max q <? S nt) && Rltb e (q_tolerance q)) eqn:B1.
    - destruct (Rltb resid (q_tolerance q)) eqn:B2; [|exact (GO resid H)].
      destruct (lt_zero x) as [[|]|] eqn:EZ; inversion H; subst; try reflexivity.
      exists x, e. cbn. repeat split.
      + apply (proj1 (residual_lt _ _ _ _ ER)). apply Rltb_iff. exact B2.
      + apply not_lt_zero. exact EZ.
      + exists [], it1, v. cbn [app]. econstructor; [exact EN|constructor].
    - destruct (q_max q <? S nt); [inversion H; subst; reflexivity|]. exact (GO e H).
  Qed.

  Lemma new_guess_facts : forall outer st r st', new_guess q outer st = (r, st') ->
    coverages st' = coverages st /\ converged st' = converged st /\
    (forall c, r = Ok (Again c) -> exists h, q_hybrid q = Some h /\ h (trace st) outer = Ok c) /\
    (r = Ok Leave -> q_hybrid q = None).
  Proof.
    intros outer st r st' H. unfold new_guess in H. destruct (q_hybrid q) as [h|] eqn:EH.
    - destruct (h (trace st) outer) as [c|] eqn:E; inversion H; subst; cbn;
        (split; [reflexivity|]; split; [reflexivity|]; split; [|discriminate]).
      + intros c0 EC. injection EC as <-. eauto.
      + discriminate.
    - inversion H; subst. split; [reflexivity|]; split; [reflexivity|]; split; [discriminate|reflexivity].
  Qed.

  (** Where a result can come from: a guess within the tolerance, or an item of an iteration. *)
  Definition from_guess (c0 x : list R) : Prop := x = c0 /\ residual_within (q_f q) x (q_tolerance q).
  Definition from_run (c0 x : list R) : Prop :=
    residual_below (q_f q) x (q_tolerance q) /\ non_negative x /\
    exists it os it' e v, start q c0 it /\ yields (q_next q) it (os ++ [(x, e, v)]) it'.

  Lemma attempt_facts : forall outer c0 st r st', attempt q outer c0 st = (r, st') ->
    match r with
    | Ok Leave =>
        (converged st' = true /\ exists x, coverages st' = Some x /\ (from_guess c0 x \/ from_run c0 x)) \/
        (converged st' = converged st /\ q_hybrid q = None)
    | Ok (Again c) => converged st' = converged st /\ exists h t, q_hybrid q = Some h /\ h t outer = Ok c
    | Err _ => converged st' = converged st \/
        (converged st' = true /\ exists x, coverages st' = Some x /\ from_guess c0 x)
    end.
  Proof.
    intros outer c0 st r st' H. unfold attempt in H.
    destruct (get_residual (q_f q) c0) as [resid|e] eqn:ER; [|inversion H; subst; left; reflexivity].
    destruct (Rleb resid (q_tolerance q) && negb (q_single_pt q)) eqn:B.
    - apply andb_true_iff in B. destruct B as [B _]. apply Rleb_iff in B.
      pose proof (proj1 (residual_le _ _ _ _ ER) B) as W.
      cbv zeta in H.
      match type of H with (match ?c with _ => _ end) = _ => destruct c as [err|ex] end; inversion H; subst; cbn.
      + left. split; [reflexivity|]. exists c0. split; [reflexivity|]. left. split; [reflexivity|exact W].
      + right. split; [reflexivity|]. exists c0. split; [reflexivity|]. split; [reflexivity|exact W].
    - assert (ST : forall it, (if str_eqb (q_rootfinding q) (L "ConstrainedNewton") then Ok (q_constrained q c0)
                  else if str_eqb (q_rootfinding q) (L "MDNewton") then Ok (q_damped q c0)
                  else Err ParameterError) = Ok it -> start q c0 it).
      { intros it E. destruct (str_eqb (q_rootfinding q) (L "ConstrainedNewton")) eqn:E1.
        - injection E as <-. left. split; [apply str_eqb_eq; exact E1|reflexivity].
        - destruct (str_eqb (q_rootfinding q) (L "MDNewton")) eqn:E2; [|discriminate].
          injection E as <-. right. split; [apply str_eqb_eq; exact E2|reflexivity]. }
      match type of H with (match ?c with _ => _ end) = _ => destruct c as [it|ex] end;
        [|inversion H; subst; left; reflexivity].
      specialize (ST it eq_refl).
      destruct (calls q (all_plugins q (fun ap => Setup ap outer)) st) as [[u|ex] st1] eqn:EC;
        apply calls_facts in EC; destruct EC as (_ & _ & EC);
        [|inversion H; subst; left; exact EC].
      destruct (inner q (S (S (q_max q))) outer 0 it st1) as [[[|]|ex] st2] eqn:EI;
        apply inner_found in EI.
      + inversion H; subst. left. destruct EI as (x & e & E1 & _ & E3 & E4 & E5 & os & it' & v & E6).
        split; [exact E3|]. exists x. split; [exact E1|]. right.
        split; [exact E4|]. split; [exact E5|]. exists it, os, it', e, v. split; [exact ST|exact E6].
      + apply new_guess_facts in H. destruct H as (_ & H2 & H3 & H4).
        destruct r as [[|c]|ex].
        * right. split; [congruence|]. apply H4. reflexivity.
        * split; [congruence|]. destruct (H3 c eq_refl) as (h & K1 & K2). exists h, (trace st2). auto.
        * left. congruence.
      + inversion H; subst. left. congruence.
  Qed.

  Lemma outer_result : forall (P : list R -> Prop) k outer c0 st c1 st',
    P c0 -> (forall h t n c, q_hybrid q = Some h -> h t n = Ok c -> P c) ->
    (q_hybrid q = None -> converged st = false) ->
    outer_loop q k outer c0 st = (Ok c1, st') -> converged st' = true ->
    P c1 /\ exists x, coverages st' = Some x /\ (from_guess c1 x \/ from_run c1 x).
  Proof.
    intros P. induction k as [|k IH]; intros outer c0 st c1 st' HP HH HC H HT; cbn [outer_loop] in H;
      [discriminate|].
    destruct (match attempt q outer c0 st with
              | (Err ZeroDivisionError, s) => new_guess q outer s
              | rs => rs
              end) as [r st1] eqn:EA.
    assert (FACT : match r with
      | Ok Leave => (converged st1 = true -> exists x, coverages st1 = Some x /\ (from_guess c0 x \/ from_run c0 x))
      | Ok (Again c) => P c /\ (q_hybrid q <> None)
      | Err _ => True
      end).
    { destruct (attempt q outer c0 st) as [r0 st0] eqn:EB.
      apply attempt_facts in EB.
      assert (NG : forall rr, (rr, st1) = new_guess q outer st0 ->
        (converged st0 = converged st \/ (converged st0 = true /\ exists x, coverages st0 = Some x /\ from_guess c0 x)) ->
        match rr with
        | Ok Leave => (converged st1 = true -> exists x, coverages st1 = Some x /\ (from_guess c0 x \/ from_run c0 x))
        | Ok (Again c) => P c /\ (q_hybrid q <> None)
        | Err _ => True
        end).
      { intros rr ER Z. symmetry in ER. apply new_guess_facts in ER. destruct ER as (N1 & N2 & N3 & N4).
        destruct rr as [[|c]|]; [| |exact Logic.I].
        - intro T. specialize (N4 eq_refl). destruct Z as [Z|(_ & x & Z1 & Z2)].
          + rewrite N2, Z, (HC N4) in T. discriminate.
          + exists x. split; [congruence|left; exact Z2].
        - destruct (N3 c eq_refl) as (h & K1 & K2). split; [exact (HH _ _ _ _ K1 K2)|congruence]. }
      destruct r0 as [[|c]|e].
      - inversion EA; subst r st1. intro T. destruct EB as [(_ & EB)|(E1 & E2)]; [exact EB|].
        rewrite E1, (HC E2) in T. discriminate.
      - inversion EA; subst r st1. destruct EB as (_ & h & t & K1 & K2).
        split; [exact (HH _ _ _ _ K1 K2)|congruence].
      - destruct e; try (inversion EA; subst; exact Logic.I).
        apply NG; [symmetry; exact EA|]. exact EB. }
    destruct (calls q (all_plugins q (fun ap => Finalize ap (match r with Ok (Again _) => S outer | _ => outer end))) st1)
      as [[u|ex] st2] eqn:EC; [|discriminate].
    apply calls_facts in EC. destruct EC as (C1 & _ & C3).
    destruct r as [[|c]|ex]; [| |discriminate].
    - inversion H; subst. split; [exact HP|]. rewrite C3 in HT. destruct (FACT HT) as (x & F1 & F2).
      exists x. split; [congruence|exact F2].
    - destruct FACT as [F1 F2]. eapply IH; [exact F1|exact HH|intro Z; contradiction|exact H|exact HT].
  Qed.

  Theorem search_result : forall (P : list R -> Prop) fuel c0 a st,
    (forall g c', (c0 = Some g \/ exists h, q_hybrid q = Some h /\ h [] 0 = Ok g) ->
       q_constrain q g = Ok c' -> P c') ->
    (forall h t n c, q_hybrid q = Some h -> h t n = Ok c -> P c) ->
    get_steady_state_cvgs q fuel c0 = (Ok (Some a), st) ->
    P (a_guess a) /\ exists x, a_coverages a = Some x /\ (from_guess (a_guess a) x \/ from_run (a_guess a) x).
  Proof.
    intros P fuel c0 a st HC HH H. unfold get_steady_state_cvgs in H.
    match type of H with (match ?c with _ => _ end) = _ => destruct c as [[g|e] st0] eqn:E0 end; [|discriminate].
    destruct (q_constrain q g) as [g'|] eqn:EG; [|discriminate].
    destruct (outer_loop q fuel 1 g' st0) as [[c1|] st1] eqn:EO; [|discriminate].
    destruct (converged st1) eqn:ET; [|discriminate].
    destruct (coverages st1) as [cv|] eqn:EC1; [|discriminate]. destruct (error st1) as [er|] eqn:EE1; [|discriminate].
    rewrite <- EC1 in H. inversion H; subst. cbn [a_guess a_coverages].
    assert (SRC : c0 = Some g \/ exists h, q_hybrid q = Some h /\ h [] 0 = Ok g).
    { destruct c0 as [c|]; [inversion E0; subst; left; reflexivity|].
      destruct (q_hybrid q) as [h|]; inversion E0; subst. right. exists h. auto. }
    apply (outer_result P fuel 1 g' st0); [exact (HC _ _ SRC EG)|exact HH| |exact EO|exact ET].
    intros _. destruct c0 as [c|].
    - inversion E0; subst. reflexivity.
    - destruct (q_hybrid q); inversion E0; subst; reflexivity.
  Qed.

  (** Both attributes have been set. *)
  Theorem answer_complete : forall fuel c0 a st,
    get_steady_state_cvgs q fuel c0 = (Ok (Some a), st) ->
    exists x e, a_coverages a = Some x /\ a_error a = Some e.
  Proof.
    intros fuel c0 a st H. unfold get_steady_state_cvgs in H.
    match type of H with (match ?c with _ => _ end) = _ => destruct c as [[g|e] st0] end; [|discriminate].
    destruct (q_constrain q g) as [g'|]; [|discriminate].
    destruct (outer_loop q fuel 1 g' st0) as [[c1|] st1]; [|discriminate].
    destruct (converged st1); [|discriminate].
    destruct (coverages st1) as [cv|]; [|discriminate]. destruct (error st1) as [er|]; [|discriminate].
    inversion H; subst. cbn [a_coverages a_error]. eauto.
  Qed.

  (** A good guess of which the error cannot be computed. *)
  Theorem error_never_set : forall fuel c0 c1 resid,
    q_constrain q c0 = Ok c1 -> get_residual (q_f q) c1 = Ok resid -> (resid <= q_tolerance q)%R ->
    q_single_pt q = false -> q_hybrid q = None -> q_intervals q = [] ->
    (do fx <- q_f q c1; do norm <- q_norm q fx; do resid <- get_residual (q_f0 q) c1; Ok (Rmin norm resid))
      = Err ZeroDivisionError ->
    fst (get_steady_state_cvgs q (S fuel) (Some c0)) = Err AttributeError.
  Proof.
    intros fuel c0 c1 resid EC ER HR HS HH HI HZ. unfold get_steady_state_cvgs. rewrite EC.
    cbn [outer_loop]. unfold attempt. rewrite ER, HS. unfold Rleb at 1.
    destruct (Rle_dec resid (q_tolerance q)) as [_|N]; [|contradiction]. cbn [andb negb]. cbv zeta.
    rewrite HZ. unfold new_guess. rewrite HH. unfold all_plugins. rewrite HI. cbn. reflexivity.
  Qed.

  (** A function without components has no largest one. *)
  Lemma nothing_to_solve : forall fuel c0 c1,
    q_constrain q c0 = Ok c1 -> q_f q c1 = Ok [] -> q_intervals q = [] ->
    get_steady_state_cvgs q (S fuel) (Some c0) = (Err ValueError, new_state).
  Proof.
    intros fuel c0 c1 EC EF HI. unfold get_steady_state_cvgs. rewrite EC.
    cbn [outer_loop]. unfold attempt, get_residual. rewrite EF. cbn [bind map py_max].
    unfold all_plugins. rewrite HI. reflexivity.
  Qed.
End Facts.
