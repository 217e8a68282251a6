From Coq Require Import String Ascii List ZArith Bool Arith Reals Lia Lra.
Import ListNotations.
From Verif Require Import PyBase PyBaseFacts PyReal Thermo_Model Newton_Model Newton_Spec Newton_Proofs Newton_Jacobian
  Species_Model MF_Model MF_Spec MF_Cover.
Local Open Scope list_scope.
Local Open Scope nat_scope.

Lemma each_from_nth : forall {P O} (pt : O -> P) rel os k0 prev k o, each_from pt rel k0 prev os ->
  nth_error os k = Some o -> exists p last, rel (k0 + k) p o last.
Proof.
  intros P O pt rel os. induction os as [|a os IH]; intros k0 prev [|k] o H E; try discriminate;
    cbn [each_from] in H; destruct H as [H1 H2].
  - injection E as <-. rewrite Nat.add_0_r. eauto.
  - replace (k0 + S k) with (S k0 + k) by lia. exact (IH _ _ _ _ H2 E).
Qed.

Section Constrained.
  Context {X F M D N A : Type}.
  Variable f : X -> res F.
  Variable J : X -> res M.
  Variable norm : F -> res N.
  Variable neg : F -> F.
  Variable solve : M -> F -> res D.
  Variable step : X -> A -> D -> X.
  Variable xeqb : X -> X -> bool.
  Variable constraint : X -> res X.
  Variable golden : (A -> res N) -> res A.

  Lemma constrained_items : forall x0 os st,
    yields (cn_next f J norm neg solve step xeqb constraint golden) (CNew x0) os st ->
    Forall (own_residual f norm) os /\
    forall k x n v, nth_error os k = Some (x, n, v) -> 5 <= k -> exists y, constraint y = Ok x.
  Proof.
    intros x0 os st H. apply constrained_steps in H. split.
    - apply Forall_forall. intros i Hi. apply In_nth_error in Hi. destruct Hi as [k Hk].
      destruct (each_from_nth _ _ _ _ _ _ _ H Hk) as (p & last & G & _). exact G.
    - intros k x n v Hk H5. destruct (each_from_nth _ _ _ _ _ _ _ H Hk) as (p & last & _ & (d & l & _ & _ & G) & _).
      destruct (Nat.ltb_spec (1 + k) 6) as [Z|_]; [lia|]. cbn [fst] in G. eauto.
  Qed.
End Constrained.

(** With the constraint of the steady-state solver the coverages become physical. *)
Lemma constrained_coverages_feasible :
  forall {F M D N A} (f : list R -> res F) (J : list R -> res M) (norm : F -> res N) neg
    (solve : M -> F -> res D) (step : list R -> A -> D -> list R) xeqb golden s x0 os st,
  prepared s -> (forall site, In site (sites s) -> (0 <= total s site)%R) ->
  (forall x l d, length (step x l d) = length (ads s)) ->
  yields (cn_next f J norm neg solve step xeqb (constrain_coverages s) golden) (CNew x0) os st ->
  forall k x n v, nth_error os k = Some (x, n, v) -> 5 <= k -> feasible s x.
Proof.
  intros F M D N A f J norm neg solve step xeqb golden s x0 os st HP HT HL H k x n v Hk H5.
  apply constrained_steps in H.
  destruct (each_from_nth _ _ _ _ _ _ _ H Hk) as (p & last & _ & (d & l & _ & _ & G) & _).
  destruct (Nat.ltb_spec (1 + k) 6) as [Z|_]; [lia|]. cbn [fst] in G.
  destruct (constrained_feasible s HP HT (step p l d) (HL _ _ _)) as (c & E & FE).
  rewrite E in G. injection G as <-. exact FE.
Qed.

Section Damped.
  Context {X F M D A : Type}.
  Variable f : X -> res F.
  Variable norm : F -> res R.

  Lemma norms_monotone : forall os k (p : X * R),
    each_from fst (fun _ (p : X * R) (i : X * R * F) last =>
      Rltb (snd (fst i)) (snd p) = true \/ (fst i = p /\ last = true)) k p os ->
    (forall i a, nth_error os i = Some a -> (snd (fst a) <= snd p)%R /\ (S i < length os -> (snd (fst a) < snd p)%R)) /\
    forall i j a b, i < j -> nth_error os i = Some a -> nth_error os j = Some b ->
      (snd (fst b) <= snd (fst a))%R /\ (S j < length os -> (snd (fst b) < snd (fst a))%R).
  Proof.
    induction os as [|o os IH]; intros k p H; [split; [intros [|]|intros [|]]; discriminate|].
    cbn [each_from] in H. destruct H as [H0 H]. destruct (IH _ _ H) as [I1 I2].
    assert (O : (snd (fst o) <= snd p)%R /\ (0 < length os -> (snd (fst o) < snd p)%R)).
    { destruct H0 as [H0|[H0 HL]].
      - unfold Rltb in H0. destruct (Rlt_dec (snd (fst o)) (snd p)); [|discriminate]. split; [lra|auto].
      - rewrite H0. split; [lra|]. destruct os; [cbn; lia|discriminate]. }
    destruct O as [O1 O2].
    assert (FST : forall i a, nth_error os i = Some a -> (snd (fst a) <= snd (fst o))%R /\
      (S i < length os -> (snd (fst a) < snd (fst o))%R)) by exact I1.
    split.
    - intros [|i] a E; cbn in E.
      + injection E as <-. split; [exact O1|]. cbn. intro Z. apply O2. lia.
      + destruct (FST i a E) as [G1 G2].
        assert (LT : i < length os) by (apply nth_error_Some; congruence).
        specialize (O2 ltac:(lia)). cbn. split; [lra|]. intro Z. specialize (G2 ltac:(lia)). lra.
    - intros [|i] [|j] a b Hij Ea Eb; cbn in Ea, Eb; try lia.
      + injection Ea as <-. destruct (FST j b Eb) as [G1 G2]. split; [exact G1|]. cbn. intro Z. apply G2. lia.
      + destruct (I2 i j a b ltac:(lia) Ea Eb) as [G1 G2]. split; [exact G1|]. cbn. intro Z. apply G2. lia.
  Qed.
End Damped.

Lemma damped_monotone :
  forall {X F M D A} (f : X -> res F) (J : X -> res M) (norm : F -> res R) neg (solve : M -> F -> res D)
    (step : X -> A -> D -> X) xeqb add one half fuel x0 v0 n0 os st,
  f x0 = Ok v0 -> norm v0 = Ok n0 ->
  yields (md_next f J norm neg solve step xeqb add one half Rltb fuel) (MNew x0) os st ->
  Forall (own_norm f norm) os /\
  (forall i x n v, nth_error os i = Some (x, n, v) -> (n <= n0)%R) /\
  (forall i j x n v x' n' v', i < j -> nth_error os i = Some (x, n, v) -> nth_error os j = Some (x', n', v') ->
     (n' <= n)%R /\ (S j < length os -> (n' < n)%R)).
Proof.
  intros X F M D A f J norm neg solve step xeqb add one half fuel x0 v0 n0 os st E1 E2 H.
  pose proof (damped_steps _ _ _ _ _ _ _ _ _ _ _ _ _ _ _ _ _ E1 E2 H) as G.
  destruct (damped_norms _ _ _ _ _ _ _ _ _ _ _ _ _ _ _ _ E1 E2 G) as [G1 G2].
  destruct (norms_monotone os 1 (x0, n0) G2) as [M1 M2].
  split; [exact G1|]. split.
  - intros i x n v Hi. apply (M1 i (x, n, v) Hi).
  - intros i j x n v x' n' v' Hij Hi Hj. exact (M2 i j _ _ Hij Hi Hj).
Qed.

(** Step lengths with one binary digit: the halved step is no step.  The value reported with the
    stationary point is the one of the rejected point. *)
Definition w_f (x : Z) : res Z := Ok (if Z.eqb x 0 then 1 else 5)%Z.
Lemma stale_value : exists (f : Z -> res Z) J norm neg solve step xeqb add one half nltb fuel x0 i st,
  yields (md_next (M := unit) (D := Z) (A := Z) (N := Z) f J norm neg solve step xeqb add one half nltb fuel)
    (MNew x0) [i] st /\
  let '(x, n, v) := i in f x <> Ok v.
Proof.
  exists w_f, (fun _ => Ok tt), (fun v => Ok (Z.abs v)), Z.opp, (fun _ _ => Ok 1%Z),
    (fun x l s => x + l * s)%Z, Z.eqb, Z.add, 1%Z, (fun l => l / 2)%Z, Z.ltb, 3, 0%Z, (0, 1, 5)%Z, MEnd.
  split; [|cbn; discriminate].
  econstructor; [vm_compute; reflexivity|constructor].
Qed.

(** Newton's method for 4 - x on the rationals written as numerators over 1: one full step. *)
Lemma damped_example : exists st,
  yields (md_next (X := Z) (F := Z) (M := Z) (D := Z) (A := Z) (N := Z) (fun x => Ok (16 - x * x)%Z)
    (fun x => Ok (- 2 * x)%Z) (fun v => Ok (Z.abs v)) Z.opp (fun m v => Ok (v / m)%Z)
    (fun x l s => x + l * s / 4)%Z Z.eqb Z.add 4%Z (fun l => l / 2)%Z Z.ltb 10)
    (MNew 1%Z) [(4, 0, 0); (4, 0, 0)]%Z st.
Proof.
  eexists. do 2 (econstructor; [vm_compute; reflexivity|]). constructor.
Qed.

(** Seven items of a constrained iteration; the constraint keeps the point below 10. *)
Lemma constrained_example : exists st,
  yields (cn_next (X := Z) (F := Z) (M := unit) (D := Z) (A := Z) (N := Z) (fun x => Ok (100 - x)%Z)
    (fun _ => Ok tt) (fun v => Ok (Z.abs v)) Z.opp (fun _ _ => Ok 3%Z)
    (fun x l s => x + l * s)%Z Z.eqb (fun x => Ok (Z.min x 10)) (fun _ => Ok 1%Z))
    (CNew 0%Z) [(3, 97, 97); (6, 94, 94); (9, 91, 91); (12, 88, 88); (15, 85, 85); (10, 90, 90); (10, 90, 90)]%Z st.
Proof.
  eexists. do 7 (econstructor; [vm_compute; reflexivity|]). constructor.
Qed.

Definition w_square (x : list R) : list R := map (fun a => a * a)%R x.
Lemma square_slope : forall eps, (0 < eps)%R -> exists h0, (0 < h0)%R /\ forall h num, (0 < h < h0)%R ->
  num = L "gmpy" \/ num = L "mpmath" ->
  exists cols col v, numerical_jacobian (fun x => Ok (match x with [a] => w_square x | _ => [0%R] end)) [3%R] num h (side_name false) = Ok cols /\
    nth_error cols 0 = Some col /\ nth_error col 0 = Some v /\ (Rabs (v - 6) < eps)%R.
Proof.
  apply (jacobian_converges (fun x => match x with [a] => w_square x | _ => [0%R] end) 1).
  - intros [|a [|b x]]; reflexivity.
  - lia.
  - cbn. lia.
  - apply (derivable_pt_lim_ext (fun t => (3 + t) * (3 + t))%R); [intro z; reflexivity|].
    replace 6%R with (1 * (3 + 0) + (3 + 0) * 1)%R by ring.
    apply derivable_pt_lim_mult;
      (replace 1%R with (0 + 1)%R by ring; apply derivable_pt_lim_plus;
       [apply derivable_pt_lim_const|apply derivable_pt_lim_id]).
Qed.
