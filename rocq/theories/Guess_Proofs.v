From Coq Require Import List ZArith QArith Bool Arith Lia Lqa.
From Verif Require Import PyBase Ode_Model Ode_Spec Ode_Proofs Guess_Model Guess_Spec.
Import ListNotations.
Local Open Scope list_scope.
Local Open Scope nat_scope.

Lemma clean_repeat n c : clean n c <-> c = repeat 0%Q n.
Proof.
  split.
  - intros (<- & F). induction F as [|x c <- F IH]; cbn; [reflexivity|]. now rewrite <- IH.
  - intros ->. split; [apply repeat_length|]. induction n; cbn; constructor; auto.
Qed.

Lemma boltz_start given b n r : given = None \/ given = Some [] ->
  (initial_values given b n = r <-> boltzmann_start b n r).
Proof.
  intros G. assert (E : initial_values given b n = match b with Err IOError => Ok (repeat 0%Q n) | r => r end)
    by (destruct G as [-> | ->]; reflexivity).
  rewrite E. split.
  - intros <-. destruct b as [v|e]; [now constructor|].
    destruct e; try (apply bs_error; [reflexivity|discriminate]).
    apply bs_missing; [reflexivity|]. now apply clean_repeat.
  - intros [v -> | c -> C | e -> N]; [reflexivity| |].
    + apply clean_repeat in C as ->. reflexivity.
    + destruct e; try reflexivity. congruence.
Qed.

Lemma begins_ok {X} (m : memory X) b n r :
  initial_values (Some (coverages m n)) b n = r <-> begins (m_coverages m) b n r.
Proof.
  unfold coverages. destruct (m_coverages m) as [[|x c]|] eqn:E.
  - rewrite (boltz_start _ _ _ r (or_intror eq_refl)). split.
    + intros H. apply bg_boltzmann; [now left|exact H].
    + intros [c C N|c C|r' _ H]; [injection C as <-; congruence|discriminate|exact H].
  - split.
    + intros <-. apply bg_known; [reflexivity|discriminate].
    + intros [c' C N|c' C|r' [C|[C _]] H]; try discriminate. injection C as <-. reflexivity.
  - destruct n as [|n].
    + rewrite (boltz_start _ _ _ r (or_intror eq_refl)). split.
      * intros H. apply bg_boltzmann; [right; auto|exact H].
      * intros [c C N|c C N|r' _ H]; [discriminate|congruence|exact H].
    + split.
      * intros <-. apply bg_clean; [reflexivity|discriminate|]. now apply clean_repeat.
      * intros [c C N|c C N CL|r' [C|[_ C]] H]; try discriminate. apply clean_repeat in CL as ->. reflexivity.
Qed.

Section Guess.
  Context {S E X : Type}.
  Variable start : option E -> list Q -> Q -> S.
  Variable time : S -> Q.
  Variable values : S -> list Q.
  Variable integrate : S -> Q -> res unit * S.
  Variable show : Q -> str.
  Variable header : str.

  Lemma quiet_back interval t_end t_step fuel : interval <> 0%Z -> forall s r s',
    ode_loop time values integrate show fuel false interval t_end t_step s = Some (r, s') ->
    exists l, trajectory time integrate t_end t_step (o_ode s) l r (o_ode s') /\ length l < fuel.
  Proof.
    intros NZ. induction fuel as [|fuel IH]; intros s r s' H; [discriminate|].
    cbn [ode_loop] in H. destruct (negb _) eqn:B.
    - apply not_below in B. unfold ode_step in H.
      destruct (interval =? 0)%Z eqn:Z0; [apply Z.eqb_eq in Z0; contradiction|].
      destruct (integrate (o_ode s) (time (o_ode s) + t_step)%Q) as [[[]|e] r1] eqn:EI; cbn [andb] in H.
      + apply IH in H as (l & TR & LN). exists (r1 :: l). split; [|cbn; lia]. eapply tr_step; eauto.
      + injection H as <- <-. exists []. split; [|cbn; lia]. now apply tr_raise.
    - injection H as <- <-. exists []. split; [|cbn; lia]. apply tr_end. intros C. apply not_below in C. congruence.
  Qed.

  Lemma last_ok fuel interval b n t_end t_span given r : interval <> 0%Z ->
    (last_of_ode start time values integrate show header fuel interval b n t_end t_span given = Some r <->
     integrated (start None) time values integrate t_end t_span fuel (initial_values given b n) r).
  Proof.
    intros NZ. unfold last_of_ode. destruct (initial_values given b n) as [c|e].
    - split.
      + destruct (solve_ode _ _ _ _ _ _ _ _ _ _ _ _ _ _) as [[r0 f]|] eqn:EQ; [|discriminate].
        intros H. injection H as <-. unfold solve_ode in EQ.
        destruct (ode_loop _ _ _ _ _ _ _ _ _ _) as [[r1 s']|] eqn:EL; [|discriminate].
        injection EQ as <- _. apply quiet_back in EL as (l & TR & LN); [|exact NZ]. cbn [o_ode] in TR.
        destruct r1 as [[]|e]; cbn [bind snd].
        * exact (in_end _ _ _ _ _ _ _ _ c l _ eq_refl TR LN).
        * exact (in_raise _ _ _ _ _ _ _ _ c l e _ eq_refl TR LN).
      + intros [e Ec|c0 l last Ec TR LN|c0 l e last Ec TR LN]; [discriminate| |]; injection Ec as <-;
          rewrite (solve_quiet (start None) time values integrate show header _ _ _ _ _ _ _ _ _ NZ TR fuel LN); reflexivity.
    - split.
      + intros H. injection H as <-. now apply in_error.
      + intros [e' Ec|c0 l last Ec|c0 l e' last Ec]; try discriminate. injection Ec as <-. reflexivity.
  Qed.

  Lemma hybrid_ok fuel (md : model X) N r : md_interval md <> 0%Z ->
    (ODE_integration start time values integrate show header fuel md N = Some r <->
     exists b, begins (m_coverages (md_memory md)) (md_boltzmann md) (md_nads md) b /\
       integrated (start None) time values integrate 10 (1 # 100) fuel b r).
  Proof.
    intros NZ. unfold ODE_integration. rewrite (last_ok _ _ _ _ _ _ _ _ NZ). split.
    - intros H. eexists. split; [|exact H]. now apply begins_ok.
    - intros (b & B & H). apply begins_ok in B. rewrite B. exact H.
  Qed.

  Lemma modify_ok fuel (md : model X) a k r : md_interval md <> 0%Z ->
    (modify_init_guess start time values integrate show header fuel md a k = Some r <->
     exists b, boltzmann_start (md_boltzmann md) (md_nads md) b /\
       integrated (start None) time values integrate (inject_Z (Z.of_nat a)) (/ inject_Z (10 ^ Z.of_nat k)) fuel b r).
  Proof.
    intros NZ. unfold modify_init_guess.
    rewrite (last_ok _ _ _ _ _ _ _ _ NZ). split.
    - intros H. eexists. split; [|exact H]. apply (boltz_start None); [now left|reflexivity].
    - intros (b & B & H). apply (boltz_start None) in B; [|now left]. rewrite B. exact H.
  Qed.

  Lemma hybrid_zero fuel (md : model X) N c : md_interval md = 0%Z ->
    begins (m_coverages (md_memory md)) (md_boltzmann md) (md_nads md) (Ok c) -> (time (start None c 0) < 10)%Q ->
    ODE_integration start time values integrate show header (1 + fuel) md N = Some (Err ZeroDivisionError).
  Proof.
    intros Z0 B LT. unfold ODE_integration, last_of_ode. apply begins_ok in B. rewrite B, Z0.
    unfold solve_ode. cbn [ode_loop o_ode Nat.add]. rewrite (proj2 (not_below _ _) LT). reflexivity.
  Qed.

  (** An integrator that does what it is asked for: one thousand steps, or a x 10^k. *)
  Hypothesis exact : forall s t, fst (integrate s t) = Ok tt /\ (time (snd (integrate s t)) == t)%Q.
  Hypothesis at_start : forall e c t, (time (start e c t) == t)%Q.

  Lemma steps_ok (a : Z) (p : Z) c : (0 <= a)%Z -> (0 < p)%Z ->
    exists l last, trajectory time integrate (inject_Z a) (/ inject_Z p) (start None c 0) l (Ok tt) last /\
      length l = Z.to_nat (a * p) /\ (time last == inject_Z a)%Q.
  Proof.
    intros A P.
    assert (P' : (0 < inject_Z p)%Q) by (unfold Qlt; cbn; lia).
    assert (PN : ~ (inject_Z p == 0)%Q) by (intros C; rewrite C in P'; discriminate).
    assert (EN : (inject_Z (Z.of_nat (Z.to_nat (a * p))) * / inject_Z p == inject_Z a)%Q).
    { rewrite Z2Nat.id by lia. rewrite inject_Z_mult. field. exact PN. }
    destruct (trajectory_steps time integrate (inject_Z a) (/ inject_Z p) (Z.to_nat (a * p)) (start None c 0))
      as (l & last & TR & LN & TL).
    - now apply Qinv_lt_0_compat.
    - exact exact.
    - intros k K. rewrite at_start, Qplus_0_l, <- EN. apply Qmult_lt_compat_r; [now apply Qinv_lt_0_compat|].
      rewrite <- Zlt_Qlt. lia.
    - rewrite at_start, EN. lra.
    - exists l, last. split; [exact TR|]. split; [exact LN|]. rewrite TL, at_start, EN. ring.
  Qed.
End Guess.

(** Coverages that the integrator leaves alone come back. *)
Lemma steady_values {S} (time : S -> Q) (values : S -> list Q) integrate t_end t_span s l r last :
  (forall s t, values (snd (integrate s t)) = values s) ->
  trajectory time integrate t_end t_span s l r last -> values last = values s.
Proof.
  intros ST TR. induction TR as [s N|s e s1 LT EI|s s1 l r last LT EI TR IH]; [reflexivity| |].
  - pose proof (ST s (time s + t_span)%Q) as H. now rewrite EI in H.
  - rewrite IH. pose proof (ST s (time s + t_span)%Q) as H. now rewrite EI in H.
Qed.
