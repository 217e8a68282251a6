From Coq Require Import String Ascii List ZArith Bool Arith Reals Lia Lra.
Import ListNotations.
From Verif Require Import PyBase PyBaseFacts PyReal Thermo_Model Newton_Model Newton_Spec.
Local Open Scope list_scope.
Local Open Scope nat_scope.

Lemma last_cons_eq : forall {T} (l : list T) a d, last (a :: l) d = last l a.
Proof.
  intros T l. induction l as [|b l IH]; intros a d; [reflexivity|].
  change (last (a :: b :: l) d) with (last (b :: l) d). rewrite !IH. reflexivity.
Qed.

Section Constrained.
  Context {X F M D N A : Type}.
  Variable f : X -> res F.
  Variable J : X -> res M.
  Variable norm : F -> res N.
  Variable neg : F -> F.
  Variable solve : M -> F -> res D.
  Variable step : X -> A -> D -> X.
  Variable xeqb : X -> X -> bool.
  Variable constraint : X -> res X.
  Variable golden : (A -> res N) -> res A.
  Let next := cn_next f J norm neg solve step xeqb constraint golden.
  Let turn := cn_turn f J norm neg solve step xeqb constraint golden.
  Let good := constrained_step f norm J neg solve step golden constraint xeqb.

  Lemma turn_inv : forall n x0 i st, turn n x0 = Ok (i, st) ->
    (forall last, (xeqb (fst (fst i)) x0 = true -> last = true) -> good (S n) x0 i last) /\
    st = (if xeqb (fst (fst i)) x0 then CEnd else CRun (S n) (fst (fst i))).
  Proof.
    intros n x0 i st H. unfold turn, cn_turn in H.
    destruct (f x0) as [v|] eqn:Ef; [|discriminate]. cbn [bind] in H.
    destruct (J x0) as [m|] eqn:EJ; [|discriminate]. cbn [bind] in H.
    destruct (solve m (neg v)) as [d|e] eqn:Es; [|destruct e; discriminate]. cbn [bind] in H.
    match type of H with bind ?g _ = _ => change g with (golden (along f norm step x0 d)) in H end.
    destruct (golden (along f norm step x0 d)) as [l|] eqn:Eg; [|discriminate]. cbn [bind] in H.
    match type of H with bind ?g _ = _ => destruct g as [x1|] eqn:Ec end; [|discriminate]. cbn [bind] in H.
    destruct (f x1) as [v1|] eqn:Ef1; [|discriminate]. cbn [bind] in H.
    destruct (norm v1) as [n1|] eqn:En; [|discriminate]. cbn [bind] in H.
    injection H as <- <-. cbn [fst].
    split; [|reflexivity].
    intros last HL. unfold good, constrained_step, own_residual. cbn [fst].
    split; [split; assumption|]. split; [|exact HL].
    exists d, l. split; [exists v, m; repeat split; assumption|]. split; [exact Eg|].
    replace (S n <? 6) with (S n <=? 5) by (destruct (Nat.leb_spec (S n) 5), (Nat.ltb_spec (S n) 6); lia).
    destruct (S n <=? 5); [injection Ec as Ec|]; assumption.
  Qed.

  Lemma next_end : forall os st, yields next CEnd os st -> os = [] /\ st = CEnd.
  Proof.
    intros os st H. remember CEnd as s0 eqn:E. destruct H as [|s o st1 os st2 H _]; [auto|].
    subst s. discriminate.
  Qed.

  Lemma run_steps : forall os st n x0, yields next (CRun n x0) os st ->
    each_from (fun i => fst (fst i)) good (S n) x0 os.
  Proof.
    induction os as [|o os IH]; intros st n x0 H; [exact I|].
    inversion H as [|s o' st1 os' st2 H1 H2]; subst.
    unfold next, cn_next in H1. fold (turn n x0) in H1.
    destruct (turn n x0) as [[i s1]|] eqn:E; [|discriminate]. cbn [bind] in H1.
    injection H1 as <- <-.
    destruct (turn_inv _ _ _ _ E) as [G ->].
    cbn [each_from]. split.
    - apply G. intro K. rewrite K in H2. apply next_end in H2. destruct H2 as [-> _]. reflexivity.
    - destruct (xeqb (fst (fst i)) x0); [apply next_end in H2; destruct H2 as [-> _]; exact I|].
      exact (IH _ _ _ H2).
  Qed.

  Lemma new_run : forall x0 os st, os <> [] -> yields next (CNew x0) os st -> yields next (CRun 0 x0) os st.
  Proof.
    intros x0 os st NE H. inversion H as [|s o st1 os' st2 H1 H2]; subst; [congruence|].
    econstructor; [|exact H2]. unfold next, cn_next in H1 |- *.
    destruct (f x0) as [v|]; [|discriminate]. cbn [bind] in H1. destruct (norm v); [|discriminate]. exact H1.
  Qed.

  Theorem constrained_steps : forall x0 os st, yields next (CNew x0) os st ->
    each_from (fun i => fst (fst i)) good 1 x0 os.
  Proof.
    intros x0 os st H. destruct os as [|o os]; [exact I|].
    apply (run_steps (o :: os) st 0). apply new_run; [discriminate|exact H].
  Qed.

  (** The state after some items. *)
  Lemma run_state : forall os st n x0, yields next (CRun n x0) os st -> os <> [] ->
    st = (if xeqb (last (map (fun i => fst (fst i)) os) x0)
                  (last (map (fun i => fst (fst i)) (removelast os)) x0) then CEnd
          else CRun (n + length os) (last (map (fun i => fst (fst i)) os) x0)).
  Proof.
    induction os as [|o os IH]; intros st n x0 H NE; [congruence|].
    inversion H as [|s o' st1 os' st2 H1 H2]; subst.
    unfold next, cn_next in H1. fold (turn n x0) in H1.
    destruct (turn n x0) as [[i s1]|] eqn:E; [|discriminate]. cbn [bind] in H1.
    injection H1 as <- <-.
    destruct (turn_inv _ _ _ _ E) as [_ ->].
    destruct os as [|o2 os].
    - inversion H2; subst. cbn. rewrite Nat.add_1_r. reflexivity.
    - destruct (xeqb (fst (fst i)) x0) eqn:Q; [apply next_end in H2; destruct H2; discriminate|].
      rewrite (IH _ _ _ H2 ltac:(discriminate)).
      change (removelast (i :: o2 :: os)) with (i :: removelast (o2 :: os)).
      cbn [map]. rewrite !last_cons_eq.
      replace (S n + length (o2 :: os)) with (n + length (i :: o2 :: os)) by (cbn; lia). reflexivity.
  Qed.

  Theorem constrained_end : forall x0 os o st, yields next (CNew x0) (os ++ [o]) st ->
    (next st = Ok (None, st) <-> xeqb (fst (fst o)) (last (map (fun i => fst (fst i)) os) x0) = true).
  Proof.
    intros x0 os o st H.
    apply new_run in H; [|destruct os; discriminate].
    apply run_state in H; [|destruct os; discriminate].
    rewrite removelast_last, map_app in H. cbn [map] in H. rewrite last_last in H. subst st.
    destruct (xeqb (fst (fst o)) (last (map (fun i => fst (fst i)) os) x0)) eqn:E.
    - split; [reflexivity|reflexivity].
    - split; [|discriminate]. intro K. exfalso.
      unfold next, cn_next in K.
      match type of K with bind ?t _ = _ => destruct t as [[i s]|]; discriminate end.
  Qed.

  (** A singular matrix is reported as a different exception. *)
  Theorem constrained_singular : forall n x0 v m, f x0 = Ok v -> J x0 = Ok m ->
    solve m (neg v) = Err ZeroDivisionError -> next (CRun n x0) = Err ValueError.
  Proof.
    intros n x0 v m E1 E2 E3. unfold next, cn_next, cn_turn. rewrite E1. cbn [bind]. rewrite E2. cbn [bind].
    rewrite E3. reflexivity.
  Qed.
End Constrained.

Section Damped.
  Context {X F M D N A : Type}.
  Variable f : X -> res F.
  Variable J : X -> res M.
  Variable norm : F -> res N.
  Variable neg : F -> F.
  Variable solve : M -> F -> res D.
  Variable step : X -> A -> D -> X.
  Variable xeqb : X -> X -> bool.
  Variable add : X -> D -> X.
  Variable one : A.
  Variable half : A -> A.
  Variable nltb : N -> N -> bool.
  Variable fuel : nat.
  Let next := md_next f J norm neg solve step xeqb add one half nltb fuel.
  Let turn := md_turn f J norm neg solve step xeqb add one half nltb fuel.
  Let good (k : nat) := damped_step (N := N) f norm J neg solve step xeqb add one half nltb.
  Let damp := md_damp f norm step xeqb half nltb.

  Lemma damp_inv : forall fl x0 d n0 k v i b,
    damp fl x0 d n0 (halved one half k) (tried step add one half x0 d k) v = Ok (i, b) ->
    f (match k with O => x0 | S j => tried step add one half x0 d j end) = Ok v ->
    (forall j, j < k -> rejected f norm xeqb nltb x0 n0 (tried step add one half x0 d j)) ->
    exists k', (forall j, j < k' -> rejected f norm xeqb nltb x0 n0 (tried step add one half x0 d j)) /\
    let '(x, n, v) := i in
      ((b = false /\ x = tried step add one half x0 d k' /\ xeqb x x0 = false /\ f x = Ok v /\ norm v = Ok n /\
        nltb n n0 = true)
       \/ (b = true /\ xeqb (tried step add one half x0 d k') x0 = true /\ x = x0 /\ n = n0 /\
           f (match k' with O => x0 | S j => tried step add one half x0 d j end) = Ok v)).
  Proof.
    induction fl as [|fl IH]; intros x0 d n0 k v i b H Hv HR; [discriminate|].
    unfold damp in H. cbn [md_damp] in H.
    destruct (xeqb (tried step add one half x0 d k) x0) eqn:E.
    - injection H as <- <-. exists k. split; [exact HR|]. right. auto 6.
    - destruct (f (tried step add one half x0 d k)) as [v1|] eqn:Ef; [|discriminate]. cbn [bind] in H.
      destruct (norm v1) as [n1|] eqn:En; [|discriminate]. cbn [bind] in H.
      destruct (nltb n1 n0) eqn:El.
      + injection H as <- <-. exists k. split; [exact HR|]. left. auto 7.
      + apply (IH x0 d n0 (S k) v1 i b).
        * exact H.
        * exact Ef.
        * intros j Hj. destruct (Nat.eq_dec j k) as [->|NE]; [|apply HR; lia].
          split; [exact E|]. exists v1, n1. auto.
  Qed.

  Lemma turn_damped : forall x0 v0 n0 i st, f x0 = Ok v0 -> norm v0 = Ok n0 -> turn x0 v0 n0 = Ok (i, st) ->
    exists b : bool, st = (if b then MEnd else MRun (fst (fst i)) (snd i) (snd (fst i))) /\
    (forall last, (b = true -> last = true) -> good 0 (x0, n0) i last) /\
    (b = false -> f (fst (fst i)) = Ok (snd i) /\ norm (snd i) = Ok (snd (fst i))).
  Proof.
    intros x0 v0 n0 i st Ef En H. unfold turn, md_turn in H.
    destruct (J x0) as [m|] eqn:EJ; [|discriminate]. cbn [bind] in H.
    destruct (solve m (neg v0)) as [d|] eqn:Es; [|discriminate]. cbn [bind] in H.
    destruct (md_damp f norm step xeqb half nltb fuel x0 d n0 one (add x0 d) v0) as [[[[x n] v] b]|] eqn:Ed;
      [|discriminate]. cbn [bind] in H.
    injection H as <- <-. cbn [fst snd].
    destruct (damp_inv fuel x0 d n0 0 v0 (x, n, v) b Ed Ef) as (k & HR & HC); [intros j Hj; lia|].
    exists b. split; [reflexivity|]. split.
    - intros last HL. exists d, k. split; [exists v0, m; auto|]. split; [exact HR|].
      destruct HC as [(-> & C)|(-> & C1 & C2 & C3 & C4)]; [left; exact C|right; auto 6].
    - intros ->. destruct HC as [(_ & _ & _ & C1 & C2 & _)|(C & _)]; [auto|discriminate].
  Qed.

  Lemma md_end : forall os st, yields next MEnd os st -> os = [] /\ st = MEnd.
  Proof.
    intros os st H. remember MEnd as s0 eqn:E. destruct H as [|s o st1 os st2 H _]; [auto|].
    subst s. discriminate.
  Qed.

  Lemma run_damped : forall os st k x0 v0 n0, f x0 = Ok v0 -> norm v0 = Ok n0 ->
    yields next (MRun x0 v0 n0) os st -> each_from fst good k (x0, n0) os.
  Proof.
    induction os as [|o os IH]; intros st k x0 v0 n0 Ef En H; [exact I|].
    inversion H as [|s o' st1 os' st2 H1 H2]; subst.
    unfold next, md_next in H1. fold (turn x0 v0 n0) in H1.
    destruct (turn x0 v0 n0) as [[i s1]|] eqn:E; [|discriminate]. cbn [bind] in H1.
    injection H1 as <- <-.
    destruct (turn_damped _ _ _ _ _ Ef En E) as (b & -> & G & Z).
    destruct b.
    - apply md_end in H2. destruct H2 as [-> ->]. cbn. split; [apply (G true); reflexivity|exact I].
    - cbn [each_from]. split; [apply G; discriminate|].
      destruct (Z eq_refl) as [Z1 Z2].
      destruct i as [[x n] v]. cbn [fst snd] in *. exact (IH _ _ _ _ _ Z1 Z2 H2).
  Qed.

  Theorem damped_steps : forall x0 v0 n0 os st, f x0 = Ok v0 -> norm v0 = Ok n0 ->
    yields next (MNew x0) os st -> each_from fst good 1 (x0, n0) os.
  Proof.
    intros x0 v0 n0 os st Ef En H.
    destruct os as [|o os]; [exact I|].
    apply (run_damped _ st _ _ v0 _ Ef En).
    inversion H as [|s o' st1 os' st2 H1 H2]; subst. econstructor; [|exact H2].
    unfold next, md_next in H1 |- *. rewrite Ef in H1. cbn [bind] in H1. rewrite En in H1. exact H1.
  Qed.

  (** The reported norms: those of the points, each smaller than the one before until a point is
      repeated, which ends the iteration. *)
  Theorem damped_norms : forall os k x0 v0 n0, f x0 = Ok v0 -> norm v0 = Ok n0 ->
    each_from fst good k (x0, n0) os ->
    Forall (own_norm f norm) os /\
    each_from fst (fun _ (p : X * N) (i : X * N * F) last =>
      nltb (snd (fst i)) (snd p) = true \/ (fst i = p /\ last = true)) k (x0, n0) os.
  Proof.
    induction os as [|[[x n] v] os IH]; intros k x0 v0 n0 Ef En H; [split; [constructor|exact I]|].
    cbn [each_from fst snd] in H |- *. destruct H as [(d & j & _ & _ & C) H].
    assert (O : own_norm f norm (x, n, v)).
    { destruct C as [(_ & _ & C1 & C2 & _)|(_ & -> & -> & _)]; [exists v|exists v0]; auto. }
    destruct O as (w & O1 & O2).
    destruct (IH (S k) x w n O1 O2 H) as [I1 I2].
    split; [constructor; [exists w; auto|exact I1]|]. split; [|exact I2].
    destruct C as [(_ & _ & _ & _ & C)|(_ & -> & -> & -> & _)]; [left; exact C|right; auto].
  Qed.
End Damped.
