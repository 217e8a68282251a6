(** Searches for the steady states of dissociative adsorption, and consequences of the theorems. *)
From Coq Require Import String Ascii List ZArith Bool Arith Reals Lia Lra.
Import ListNotations.
From Verif Require Import PyBase PyBaseFacts Rxn_Model Species_Model PyReal MF_Model MF_Spec MF_Cover MF_Rate MF_More
  MF_Witness Newton_Spec Newton_Model Newton_Proofs Newton_Witness Steady_Model Steady_Spec Steady_Proofs Steady_Rounds.
Local Open Scope list_scope.
Local Open Scope nat_scope.

Definition dissociation : list str := [L "O2_g + 2*_s -> 2O_s"].
Definition ds_lists : lists := Eval vm_compute in lists_of dissociation.
Definition ds_setup : setup := setup_of dissociation ds_lists [(L "*_s", one)] [(L "O2_g", 1%R)] [].
Lemma ds_usable : usable_setup ds_setup.
Proof. apply usable_setup_ok; vm_compute; reflexivity. Qed.
Lemma ds_ads : ads ds_setup = [L "O_s"].
Proof. vm_compute. reflexivity. Qed.

(** The rate equation of the solver for given rate constants. *)
Definition ds_rate (kf kr : R) (x : list R) : res (list R) :=
  steady_state_function ds_setup (Ok ([kf], [kr]))
    (match get_data ds_setup with Ok d => Some d | Err _ => None end) x.

Lemma ds_rate_is : forall kf kr t, ds_rate kf kr [t] = Ok [2 * (kf * (1 - t) * (1 - t) - kr * t * t)]%R.
Proof.
  intros kf kr t.
  assert (Len : length [t] = length (ads ds_setup)) by reflexivity.
  destruct (rates_indexed ds_setup ds_usable [t] [kf] [kr] Len eq_refl eq_refl)
    as (data' & rfs' & rrs' & E1' & E2' & L1 & L2 & HR).
  destruct (steady_indexed ds_setup ds_usable [t] [kf] [kr] Len eq_refl eq_refl)
    as (data & rfs & rrs & F & E1 & E2 & E3 & LF & H).
  assert (data' = data) by congruence. subst data'. rewrite E2 in E2'. injection E2' as <- <-.
  unfold ds_rate. rewrite E1, E3.
  change (length (ads ds_setup)) with 1 in LF. change (length (s_exprs ds_setup)) with 1 in *.
  destruct F as [|x [|]]; try discriminate.
  destruct rfs as [|rf [|]]; try discriminate. destruct rrs as [|rr [|]]; try discriminate.
  destruct (H 0 (L "O_s") x eq_refl eq_refl) as (cs & Lc & -> & C).
  destruct cs as [|c [|]]; try discriminate. cbn [Rsum].
  pose proof (C 0 _ rf rr c eq_refl eq_refl eq_refl eq_refl) as C0. clear C H.
  assert (M' : met_first (L "O_s") (hd [] (l_rxns (s_lists ds_setup))) 1 2%Z).
  { eexists _, [], _, _. split; [reflexivity|]. split; [reflexivity|]. split; [reflexivity|]. split; [reflexivity|].
    split; [intros g []|]. intros [|k] st' Hk Hs; [|lia]. injection Hs as <-.
    intros g [<-|[<-|[]]]; discriminate. }
  destruct C0 as [[A _]|[(n & M & ->)|(i & n & M & ->)]].
  - exfalso. eapply (A _ _ (or_intror (or_introl eq_refl)) (or_introl eq_refl)). reflexivity.
  - destruct (met_first_unique _ _ _ _ _ _ M M') as [Z _]. discriminate.
  - destruct (met_first_unique _ _ _ _ _ _ M M') as [_ ->].
    edestruct (HR 0 0 (L "O2_g + 2*_s -> 2O_s")) as [R1 R2];
      [reflexivity|first_pos|reflexivity|reflexivity|reflexivity|reflexivity|reflexivity|].
    cbn [nth_error] in R1, R2. injection R1 as ->. injection R2 as ->.
    f_equal. f_equal. lazy -[Rmult Rminus Rplus IZR]. ring.
Qed.

(** A search with a given list of items of the root finder and given hybrid results. *)
Definition ds_search (kf kr : R) (items : list (list R * R * list R)) (hybrid : option (list R)) (ivs : list Z)
  : search (list (list R * R * list R)) :=
  {| q_f := ds_rate kf kr; q_f0 := ds_rate kf kr; q_norm := fun v => Ok (Rsum (map Rabs v));
     q_constrain := constrain_coverages ds_setup; q_rootfinding := L "ConstrainedNewton";
     q_constrained := fun _ => items; q_damped := fun _ => items;
     q_next := fun it => match it with [] => Ok (None, []) | i :: t => Ok (Some i, t) end;
     q_hybrid := option_map (fun c _ _ => Ok c) hybrid; q_tolerance := (/ 1000)%R; q_max := 1;
     q_single_pt := false; q_intervals := ivs; q_call := fun _ _ => None |}.

Lemma ds_residual : forall kf kr t,
  get_residual (ds_rate kf kr) [t] = Ok (Rabs (2 * (kf * (1 - t) * (1 - t) - kr * t * t)))%R.
Proof. intros. unfold get_residual. rewrite ds_rate_is. reflexivity. Qed.

Lemma ds_constrain0 : constrain_coverages ds_setup [0%R] = Ok [0%R].
Proof.
  destruct ds_usable as [P _].
  assert (T : forall site, In site (sites ds_setup) -> (0 <= total ds_setup site)%R).
  { intros site [<-|[]]. lazy -[IZR Rle]. lra. }
  assert (FE : feasible ds_setup [0%R]).
  { split; [reflexivity|]. split.
    - intros [|[|i]] n x E1 E2; cbn in E2; try discriminate. injection E2 as <-.
      cbn in E1. injection E1 as <-. lazy -[IZR Rle]. lra.
    - intros site [<-|[]]. lazy -[IZR Rle Rplus]. lra. }
  exact (feasible_unchanged ds_setup P T [0%R] FE).
Qed.

Lemma Rltb_yes : forall a b, (a < b)%R -> Rltb a b = true.
Proof. intros a b H. unfold Rltb. destruct (Rlt_dec a b); [reflexivity|contradiction]. Qed.
Lemma Rltb_no : forall a b, (b <= a)%R -> Rltb a b = false.
Proof. intros a b H. unfold Rltb. destruct (Rlt_dec a b); [lra|reflexivity]. Qed.
Lemma Rleb_yes : forall a b, (a <= b)%R -> Rleb a b = true.
Proof. intros a b H. unfold Rleb. destruct (Rle_dec a b); [reflexivity|contradiction]. Qed.
Lemma Rleb_no : forall a b, (b < a)%R -> Rleb a b = false.
Proof. intros a b H. unfold Rleb. destruct (Rle_dec a b); [lra|reflexivity]. Qed.

(** Evaluates a search up to the next comparison of reals. *)
Ltac go := lazy -[Rltb Rleb ds_rate get_residual constrain_coverages ds_setup Rabs Rmult Rminus Rplus IZR Rinv Rsum Rmin];
  try rewrite ds_constrain0; try rewrite !ds_residual; try rewrite !ds_rate_is.
Ltac small := rewrite Rabs_pos_eq by lra; lra.

(** One step that leads nowhere, then a guess of the integrator with a negative coverage. *)
Definition neg_search := ds_search 1 4 [([0], 2, [2])]%R (Some [(-1)%R]) [1%Z].
Lemma neg_returned : exists a st, get_steady_state_cvgs neg_search 2 (Some [0%R]) = (Ok (Some a), st) /\
  a_coverages a = Some [(-1)%R] /\
  trace st = [Setup 0 1; Register 0 1 1; Hybrid 1; Finalize 0 2; Finalize 0 2].
Proof.
  eexists _, _. split.
  - unfold get_steady_state_cvgs. cbn [q_constrain neg_search ds_search]. rewrite ds_constrain0.
    go. rewrite (Rleb_no _ (/ 1000)) by small. go.
    rewrite (Rltb_no 2 (/ 1000)) by lra. go.
    rewrite (Rleb_yes _ (/ 1000)) by small. go.
    reflexivity.
  - split; reflexivity.
Qed.

(** A root at which the site is filled twice. *)
Definition over_search := ds_search 4 1 [([2], 0, [0])]%R None [].
Lemma over_returned : exists a st, get_steady_state_cvgs over_search 1 (Some [0%R]) = (Ok (Some a), st) /\
  a_coverages a = Some [2%R].
Proof.
  eexists _, _. split.
  - unfold get_steady_state_cvgs. cbn [q_constrain over_search ds_search]. rewrite ds_constrain0.
    go. rewrite (Rleb_no _ (/ 1000)) by small. go.
    rewrite (Rltb_yes 0 (/ 1000)) by lra. go.
    rewrite (Rltb_yes _ (/ 1000)) by small. go.
    rewrite (Rltb_no 2 0) by lra. go.
    reflexivity.
  - reflexivity.
Qed.

(** Physical results, given physical guesses. *)
Lemma feasible_non_negative : forall s c, prepared s -> feasible s c -> non_negative c.
Proof.
  intros s c P (L & H & _) x Hx. apply In_nth_error in Hx. destruct Hx as [i Hi].
  assert (LT : i < length (ads s)) by (rewrite <- L; apply nth_error_Some; congruence).
  destruct (nth_error (ads s) i) as [n|] eqn:En; [|apply nth_error_None in En; lia].
  destruct (H i n x En Hi) as [[G _] _]. exact G.
Qed.

Section Physical.
  Context {I : Type}.
  Variable q : search I.
  Variable s : setup.
  Hypothesis P : prepared s.
  Hypothesis T : forall site, In site (sites s) -> (0 <= total s site)%R.
  Hypothesis QC : q_constrain q = constrain_coverages s.

  Lemma constrained_is_feasible : forall c c', length c = length (ads s) ->
    constrain_coverages s c = Ok c' -> feasible s c'.
  Proof.
    intros c c' L E. destruct (constrained_feasible s P T c L) as (c2 & E2 & F).
    rewrite E in E2. injection E2 as ->. exact F.
  Qed.

  (** A result of the root finder has no negative coverage; another result is a guess. *)
  Lemma result_non_negative : forall fuel c0 a st,
    (forall c, c0 = Some c -> length c = length (ads s)) ->
    (forall h t n c, q_hybrid q = Some h -> h t n = Ok c -> length c = length (ads s) /\ non_negative c) ->
    get_steady_state_cvgs q fuel c0 = (Ok (Some a), st) ->
    exists x, a_coverages a = Some x /\ non_negative x.
  Proof.
    intros fuel c0 a st HL HH H.
    apply (search_result q non_negative) in H.
    - destruct H as (G & x & E & [[-> _]|(_ & N & _)]); eauto.
    - intros g c' Hg E. rewrite QC in E. apply (feasible_non_negative s c' P).
      apply (constrained_is_feasible g c'); [|exact E].
      destruct Hg as [Hg|(h & K1 & K2)]; [apply HL; exact Hg|]. exact (proj1 (HH _ _ _ _ K1 K2)).
    - intros h t n c K1 K2. exact (proj2 (HH _ _ _ _ K1 K2)).
  Qed.

  (** Everything is physical if the guesses of the hybrid method and the items of the root
      finder are. *)
  Lemma result_feasible : forall fuel c0 a st,
    (forall c, c0 = Some c -> length c = length (ads s)) ->
    (forall h t n c, q_hybrid q = Some h -> h t n = Ok c -> feasible s c) ->
    (forall g it os x e v it', feasible s g -> start q g it -> yields (q_next q) it (os ++ [(x, e, v)]) it' ->
       feasible s x) ->
    get_steady_state_cvgs q fuel c0 = (Ok (Some a), st) ->
    exists x, a_coverages a = Some x /\ feasible s x.
  Proof.
    intros fuel c0 a st HL HH HI H.
    apply (search_result q (feasible s)) in H.
    - destruct H as (G & x & E & [[-> _]|(_ & _ & it & os & it' & e & v & K1 & K2)]); [eauto|].
      exists x. split; [exact E|]. exact (HI _ _ _ _ _ _ _ G K1 K2).
    - intros g c' Hg E. rewrite QC in E.
      apply (constrained_is_feasible g c'); [|exact E].
      destruct Hg as [Hg|(h & K1 & K2)]; [apply HL; exact Hg|]. exact (proj1 (HH _ _ _ _ K1 K2)).
    - exact HH.
  Qed.
End Physical.

(** With the constrained Newton method, a root found after the fifth step is physical. *)
Lemma late_root_feasible :
  forall {M D A} (f : list R -> res (list R)) (J : list R -> res M) (norm : list R -> res R) neg
    (solve : M -> list R -> res D) (step : list R -> A -> D -> list R) xeqb golden s,
  prepared s -> (forall site, In site (sites s) -> (0 <= total s site)%R) ->
  (forall x l d, length (step x l d) = length (ads s)) ->
  forall (q : search (@cn_state (list R))),
  q_f q = f -> q_constrain q = constrain_coverages s -> q_rootfinding q = L "ConstrainedNewton" ->
  q_constrained q = CNew ->
  q_next q = cn_next f J norm neg solve step xeqb (constrain_coverages s) golden ->
  forall fuel c0 a st,
  (forall c, c0 = Some c -> length c = length (ads s)) ->
  (forall h t n c, q_hybrid q = Some h -> h t n = Ok c -> feasible s c) ->
  get_steady_state_cvgs q fuel c0 = (Ok (Some a), st) ->
  exists x, a_coverages a = Some x /\ non_negative x /\
    (feasible s x \/ exists os e v it, length os < 5 /\ yields (q_next q) (CNew (a_guess a)) (os ++ [(x, e, v)]) it).
Proof.
  intros M D A f J norm neg solve step xeqb golden s P T HL q Qf QC QR QN QX fuel c0 a st H0 HH H.
  apply (search_result q (feasible s)) in H.
  - destruct H as (G & x & E & [[-> _]|(_ & NN & it & os & it' & e & v & K1 & K2)]).
    + exists (a_guess a). split; [exact E|]. split; [exact (feasible_non_negative s _ P G)|left; exact G].
    + exists x. split; [exact E|]. split; [exact NN|].
      assert (IT : it = CNew (a_guess a)).
      { destruct K1 as [[_ K1]|[K1 _]]; [rewrite QN in K1; exact K1|]. rewrite QR in K1. discriminate. }
      subst it.
      destruct (Nat.lt_ge_cases (length os) 5) as [LT|GE]; [right; exists os, e, v, it'; auto|left].
      rewrite QX in K2.
      apply (constrained_coverages_feasible f J norm neg solve step xeqb golden s (a_guess a) _ it' P T HL K2
               (length os) x e v); [|exact GE].
      rewrite nth_error_app2 by lia. rewrite Nat.sub_diag. reflexivity.
  - intros g c' Hg E. rewrite QC in E.
    apply (constrained_is_feasible s P T g c'); [|exact E].
    destruct Hg as [Hg|(h & K1 & K2)]; [apply H0; exact Hg|]. exact (proj1 (HH _ _ _ _ K1 K2)).
  - exact HH.
Qed.

(** A plugin with interval 0 makes the search start again and again. *)
Definition zero_search := ds_search 1 4 [([0], 2, [2])]%R (Some [0%R]) [0%Z].
Lemma zero_interval_endless : forall fuel, exists st,
  get_steady_state_cvgs zero_search fuel (Some [0%R]) = (Err OutOfFuel, st).
Proof.
  intro fuel. unfold get_steady_state_cvgs. cbn [q_constrain zero_search ds_search]. rewrite ds_constrain0.
  assert (G : forall k outer st, exists st', outer_loop zero_search k outer [0%R] st = (Err OutOfFuel, st')).
  { induction k as [|k IH]; intros outer st; [eexists; reflexivity|].
    cbn [outer_loop].
    assert (A : exists st1, attempt zero_search outer [0%R] st = (Err ZeroDivisionError, st1)).
    { eexists. go. rewrite (Rleb_no _ (/ 1000)) by small. go. rewrite (Rltb_no 2 (/ 1000)) by lra. go. reflexivity. }
    destruct A as [st1 ->]. cbn [new_guess zero_search ds_search q_hybrid option_map].
    match goal with |- context [calls ?a ?b ?c] => destruct (calls a b c) as [[u|e] st2] eqn:EC end.
    - apply IH.
    - exfalso. revert EC. cbn. discriminate. }
  destruct (G fuel 1 new_state) as [st' ->]. eexists. reflexivity.
Qed.

(** A hybrid method that always gives the same bad guess. *)
Definition same_search := ds_search 1 4 [] (Some [0%R]) [].
Lemma same_guess_endless : forall fuel, exists st,
  get_steady_state_cvgs same_search fuel (Some [0%R]) = (Err OutOfFuel, st).
Proof.
  intro fuel. unfold get_steady_state_cvgs. cbn [q_constrain same_search ds_search]. rewrite ds_constrain0.
  assert (G : forall k outer st, exists st', outer_loop same_search k outer [0%R] st = (Err OutOfFuel, st')).
  { induction k as [|k IH]; intros outer st; [eexists; reflexivity|].
    cbn [outer_loop].
    assert (A : exists st1, attempt same_search outer [0%R] st = (Ok (Again [0%R]), st1)).
    { eexists. go. rewrite (Rleb_no _ (/ 1000)) by small. go. reflexivity. }
    destruct A as [st1 ->]. cbn [calls all_plugins same_search ds_search q_intervals length seq map]. apply IH. }
  destruct (G fuel 1 new_state) as [st' ->]. eexists. reflexivity.
Qed.

(** Without a hybrid method one round is all there is. *)
Section Ends.
  Context {I : Type}.
  Variable q : search I.
  Definition in_time {A} (r : res A) : Prop := r <> Err OutOfFuel.
  Hypothesis F1 : forall x, in_time (q_f q x).
  Hypothesis F2 : forall x, in_time (q_f0 q x).
  Hypothesis F3 : forall v, in_time (q_norm q v).
  Hypothesis F4 : forall v, in_time (q_constrain q v).
  Hypothesis F5 : forall i, in_time (q_next q i).
  Hypothesis F6 : forall t e, q_call q t e <> Some OutOfFuel.
  Hypothesis F7 : q_hybrid q = None.

  Lemma py_max_in_time : forall v, in_time (py_max v).
  Proof. intros [|]; discriminate. Qed.
  Lemma residual_in_time : forall f x, in_time (f x) -> in_time (get_residual f x).
  Proof.
    intros f x H. unfold get_residual. destruct (f x) as [v|e]; [apply py_max_in_time|]. cbn. intro Z. apply H. congruence.
  Qed.
  Lemma calls_in_time : forall es st, in_time (fst (calls q es st)).
  Proof.
    induction es as [|e es IH]; intro st; [discriminate|]. cbn [calls].
    destruct (q_call q (trace st) e) as [x|] eqn:E; [|apply IH].
    cbn. intro Z. injection Z as ->. exact (F6 _ _ E).
  Qed.
  Lemma register_in_time : forall ivs ap inn out st, in_time (fst (register q ap ivs inn out st)).
  Proof.
    induction ivs as [|iv ivs IH]; intros ap inn out st; [discriminate|].
    cbn [register].
    destruct (iv =? 0)%Z; [discriminate|]. destruct (Z.of_nat inn mod iv =? 0)%Z; [|apply IH].
    destruct (calls q [Register ap inn out] st) as [[u|e] st1] eqn:E; [apply IH|].
    pose proof (calls_in_time [Register ap inn out] st) as C. rewrite E in C. cbn in *. intro Z. apply C. congruence.
  Qed.
  Lemma inner_in_time : forall fuel outer nt it st, q_max q < nt + fuel -> 0 < fuel ->
    in_time (fst (inner q fuel outer nt it st)).
  Proof.
    induction fuel as [|k IH]; intros outer nt it st HM H0; [lia|].
    cbn [inner]. pose proof (F5 it) as Hn.
    destruct (q_next q it) as [[[[[x err] fx]|] it1]|e]; [|discriminate|cbn; intro Z; apply Hn; congruence].
    pose proof (residual_in_time (q_f q) x (F1 x)) as Hr.
    destruct (get_residual (q_f q) x) as [resid|e]; [|cbn; intro Z; apply Hr; congruence].
    assert (GO : forall err, q_max q <? S nt = false ->
      in_time (fst (match register q 0 (q_intervals q) (S nt) outer (current x err st) with
                    | (Ok _, st) => inner q k outer (S nt) it1 st
                    | (Err e, st) => (Err e, st) end))).
    { intros err0 B. apply Nat.ltb_ge in B.
      destruct (register q 0 (q_intervals q) (S nt) outer (current x err0 st)) as [[u|e] st1] eqn:E.
      - apply IH; lia.
      - pose proof (register_in_time (q_intervals q) 0 (S nt) outer (current x err0 st)) as C. rewrite E in C.
        cbn in *. intro Z. apply C. congruence. }
    cbv zeta.
    destruct (q_max q <? S nt) eqn:B; cbn [negb andb]; [discriminate|].
    specialize (fun e => GO e eq_refl).
    destruct (Rltb err (q_tolerance q)); [|apply GO].
    destruct (Rltb resid (q_tolerance q)); [|apply GO].
    unfold lt_zero. destruct x; [discriminate|]. destruct (existsb _ _); discriminate.
  Qed.

  Lemma search_ends : forall c0, in_time (fst (get_steady_state_cvgs q 1 c0)).
  Proof.
    intro c0. unfold get_steady_state_cvgs. rewrite F7.
    destruct c0 as [c0|]; [|discriminate].
    pose proof (F4 c0) as H4. destruct (q_constrain q c0) as [c1|e]; [|cbn; intro Z; apply H4; congruence].
    assert (A : forall st, in_time (fst (attempt q 1 c1 st))).
    { intro st. unfold attempt.
      pose proof (residual_in_time (q_f q) c1 (F1 c1)) as Hr.
      destruct (get_residual (q_f q) c1) as [resid|e]; [|cbn; intro Z; apply Hr; congruence].
      destruct (Rleb resid (q_tolerance q) && negb (q_single_pt q)).
      - cbv zeta. pose proof (F1 c1) as G1. destruct (q_f q c1) as [v|e]; [|cbn; intro Z; apply G1; congruence].
        cbn [bind]. pose proof (F3 v) as G3. destruct (q_norm q v) as [n|e]; [|cbn; intro Z; apply G3; congruence].
        cbn [bind]. pose proof (residual_in_time (q_f0 q) c1 (F2 c1)) as G2.
        destruct (get_residual (q_f0 q) c1) as [b|e]; [discriminate|cbn; intro Z; apply G2; congruence].
      - match goal with |- context [match ?t with Ok it => _ | Err e => (Err e, st) end] => destruct t as [it|e] eqn:E end.
        2:{ destruct (str_eqb _ _); [discriminate|]. destruct (str_eqb _ _); [discriminate|].
            injection E as <-. discriminate. }
        pose proof (calls_in_time (all_plugins q (fun ap => Setup ap 1)) st) as C.
        destruct (calls q (all_plugins q (fun ap => Setup ap 1)) st) as [[u|e2] st1]; [|cbn; intro Z; apply C; cbn; congruence].
        pose proof (inner_in_time (S (S (q_max q))) 1 0 it st1 ltac:(lia) ltac:(lia)) as N.
        destruct (inner q (S (S (q_max q))) 1 0 it st1) as [[[|]|e2] st2]; [discriminate| |cbn; intro Z; apply N; cbn; congruence].
        unfold new_guess. rewrite F7. discriminate. }
    assert (AG : forall st c, fst (attempt q 1 c1 st) <> Ok (Again c)).
    { intros st c K. destruct (attempt q 1 c1 st) as [r st1] eqn:E. cbn in K. subst r.
      apply attempt_facts in E. destruct E as (_ & h & t & E & _). congruence. }
    cbn [outer_loop].
    match goal with |- context [attempt q 1 c1 ?s] => specialize (A s); specialize (AG s); destruct (attempt q 1 c1 s) as [r st1] end.
    cbn [fst] in A, AG.
    assert (X : exists r2 st2, (match r with
        | Err ZeroDivisionError => new_guess q 1 st1
        | _ => (r, st1) end) = (r2, st2) /\ (forall c, r2 <> Ok (Again c)) /\ in_time r2).
    { destruct r as [v|[]]; try (eexists _, _; split; [reflexivity|split; [congruence|exact A]]).
      unfold new_guess. rewrite F7. eexists _, _. split; [reflexivity|split; [congruence|discriminate]]. }
    destruct X as (r2 & st2 & X & X1 & X2).
    match goal with |- in_time (fst (match (let '(_, _) := ?t in _) with _ => _ end)) =>
      replace t with (r2, st2) by (rewrite <- X; destruct r as [|[]]; reflexivity) end.
    match goal with |- context [calls q ?e st2] => pose proof (calls_in_time e st2) as C; destruct (calls q e st2) as [[u|e3] st3] end.
    - destruct r2 as [[|c]|e];
        [cbn; destruct (converged st3), (coverages st3), (error st3); discriminate|exfalso; exact (X1 c eq_refl)|cbn; intro Z; apply X2; congruence].
    - cbn in *. intro Z. apply C. congruence.
  Qed.
End Ends.

(** A search that takes three steps, with a plugin for every and one for every other step. *)
Definition toy_search : search (list (list R * R * list R)) :=
  {| q_f := fun x => Ok x; q_f0 := fun x => Ok x; q_norm := fun v => Ok (Rsum (map Rabs v));
     q_constrain := fun x => Ok x; q_rootfinding := L "MDNewton";
     q_constrained := fun _ => []; q_damped := fun _ => [([4], 4, [4]); ([2], 2, [2]); ([0], 0, [0])]%R;
     q_next := fun it => match it with [] => Ok (None, []) | i :: t => Ok (Some i, t) end;
     q_hybrid := None; q_tolerance := 1%R; q_max := 3;
     q_single_pt := false; q_intervals := [1; 2]%Z; q_call := fun _ _ => None |}.
Lemma toy_calm : calm toy_search.
Proof.
  unfold calm. cbn. repeat split; try discriminate.
  - intros [|]; discriminate.
  - intros iv [<-|[<-|[]]]; discriminate.
Qed.
Ltac go2 := lazy -[Rltb Rleb Rabs Rmult Rminus Rplus IZR Rinv Rsum Rmin].
Lemma toy_run : exists a st, get_steady_state_cvgs toy_search 1 (Some [8%R]) = (Ok (Some a), st) /\
  a_coverages a = Some [0%R] /\
  trace st = [Setup 0 1; Setup 1 1; Register 0 1 1; Register 0 2 1; Register 1 2 1; Finalize 0 1; Finalize 1 1].
Proof.
  eexists _, _. split.
  - go2. rewrite (Rleb_no (Rabs 8) 1) by small. go2.
    rewrite (Rltb_no 4 1) by lra. go2. rewrite (Rltb_no 2 1) by lra. go2. rewrite (Rltb_yes 0 1) by lra. go2.
    rewrite (Rltb_yes (Rabs 0) 1) by small. go2. rewrite (Rltb_no 0 0) by lra. go2. reflexivity.
  - split; reflexivity.
Qed.

(** The first guess is good, its error cannot be computed. *)
Definition bad_norm_search : search unit :=
  {| q_f := fun x => Ok x; q_f0 := fun x => Err ZeroDivisionError; q_norm := fun v => Ok (Rsum (map Rabs v));
     q_constrain := fun x => Ok x; q_rootfinding := L "MDNewton"; q_constrained := fun _ => tt; q_damped := fun _ => tt;
     q_next := fun it => Ok (None, it); q_hybrid := None; q_tolerance := 1%R; q_max := 3;
     q_single_pt := false; q_intervals := []; q_call := fun _ _ => None |}.
Lemma bad_norm_run : q_constrain bad_norm_search [0%R] = Ok [0%R] /\
  residual_within (q_f bad_norm_search) [0%R] (q_tolerance bad_norm_search) /\
  fst (get_steady_state_cvgs bad_norm_search 1 (Some [0%R])) = Err AttributeError.
Proof.
  split; [reflexivity|]. assert (E : get_residual (fun x : list R => Ok x) [0%R] = Ok (Rabs 0)) by reflexivity.
  assert (B : (Rabs 0 <= 1)%R) by (rewrite Rabs_R0; lra).
  split.
  - exists [0%R]. split; [reflexivity|]. split; [discriminate|]. intros d [<-|[]]. exact B.
  - exact (error_never_set bad_norm_search 0 [0%R] [0%R] (Rabs 0) eq_refl E B eq_refl eq_refl eq_refl eq_refl).
Qed.

Lemma ds_feasible0 : feasible ds_setup [0%R].
Proof.
  split; [reflexivity|]. split.
  - intros [|[|i]] n x E1 E2; cbn in E2; try discriminate. injection E2 as <-.
    cbn in E1. injection E1 as <-. lazy -[IZR Rle]. lra.
  - intros site [<-|[]]. lazy -[IZR Rle Rplus]. lra.
Qed.
Lemma negative_refuted : exists I (q : search I) s kf kr fuel c0 a st x c,
  usable_setup s /\ feasible s c0 /\ (0 < kf)%R /\ (0 < kr)%R /\
  (forall t, q_f q t = steady_state_function s (Ok ([kf], [kr]))
     (match get_data s with Ok d => Some d | Err _ => None end) t) /\
  q_constrain q = constrain_coverages s /\
  get_steady_state_cvgs q fuel (Some c0) = (Ok (Some a), st) /\ a_coverages a = Some x /\ In c x /\ (c < 0)%R.
Proof.
  destruct neg_returned as (a & st & E & C & _).
  exists _, neg_search, ds_setup, 1%R, 4%R, 2, [0%R], a, st, [(-1)%R], (-1)%R.
  split; [exact ds_usable|]. split; [exact ds_feasible0|]. split; [lra|]. split; [lra|].
  split; [reflexivity|]. split; [reflexivity|]. split; [exact E|]. split; [exact C|]. split; [left; reflexivity|lra].
Qed.
Lemma overfilled_refuted : exists I (q : search I) s kf kr fuel c0 a st x site,
  usable_setup s /\ feasible s c0 /\ (0 < kf)%R /\ (0 < kr)%R /\ q_hybrid q = None /\
  (forall t, q_f q t = steady_state_function s (Ok ([kf], [kr]))
     (match get_data s with Ok d => Some d | Err _ => None end) t) /\
  q_constrain q = constrain_coverages s /\
  get_steady_state_cvgs q fuel (Some c0) = (Ok (Some a), st) /\ a_coverages a = Some x /\
  In site (sites s) /\ (total s site < covered site (ads s) x)%R.
Proof.
  destruct over_returned as (a & st & E & C).
  exists _, over_search, ds_setup, 4%R, 1%R, 1, [0%R], a, st, [2%R], (L "*_s").
  split; [exact ds_usable|]. split; [exact ds_feasible0|]. split; [lra|]. split; [lra|]. split; [reflexivity|].
  split; [reflexivity|]. split; [reflexivity|]. split; [exact E|]. split; [exact C|]. split; [left; reflexivity|].
  lazy -[IZR Rlt Rplus]. lra.
Qed.
Lemma pairs_refuted : exists I (q : search I) fuel c0 a st,
  get_steady_state_cvgs q fuel (Some c0) = (Ok (Some a), st) /\
  trace st = [Setup 0 1; Register 0 1 1; Hybrid 1; Finalize 0 2; Finalize 0 2].
Proof.
  destruct neg_returned as (a & st & E & _ & T). exists _, neg_search, 2, [0%R], a, st. auto.
Qed.
Lemma same_guess_refuted : exists I (q : search I) c0, feasible ds_setup c0 /\
  (forall iv, In iv (q_intervals q) -> (0 < iv)%Z) /\
  forall fuel, exists st, get_steady_state_cvgs q fuel (Some c0) = (Err OutOfFuel, st).
Proof.
  exists _, same_search, [0%R]. split; [exact ds_feasible0|]. split; [intros iv []|exact same_guess_endless].
Qed.
Lemma zero_interval_refuted : exists I (q : search I) c0, feasible ds_setup c0 /\ q_intervals q = [0%Z] /\
  forall fuel, exists st, get_steady_state_cvgs q fuel (Some c0) = (Err OutOfFuel, st).
Proof.
  exists _, zero_search, [0%R]. split; [exact ds_feasible0|]. split; [reflexivity|exact zero_interval_endless].
Qed.
