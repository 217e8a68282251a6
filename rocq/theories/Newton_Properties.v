(** The root finding iterators and the numerical Jacobian: C32, C33, C61. *)
From Coq Require Import String Ascii List ZArith Bool Arith Reals.
Import ListNotations.
From Verif Require Import PyBase PyReal Species_Model MF_Model MF_Spec Newton_Model Newton_Spec Newton_Proofs Newton_Jacobian
  Newton_Witness.
Local Open Scope list_scope.
Local Open Scope nat_scope.

(** C32: the reported norms are those of the points and never increase; they decrease up to the
    last item, which may repeat the one before. *)
Theorem C32_norms_decrease :
  forall X F M D A (f : X -> res F) (J : X -> res M) (norm : F -> res R) neg (solve : M -> F -> res D)
    (step : X -> A -> D -> X) xeqb add one half fuel x0 v0 n0 os st,
  f x0 = Ok v0 -> norm v0 = Ok n0 ->
  yields (md_next f J norm neg solve step xeqb add one half Rltb fuel) (MNew x0) os st ->
  Forall (own_norm f norm) os /\
  (forall i x n v, nth_error os i = Some (x, n, v) -> (n <= n0)%R) /\
  (forall i j x n v x' n' v', i < j -> nth_error os i = Some (x, n, v) -> nth_error os j = Some (x', n', v') ->
     (n' <= n)%R /\ (S j < length os -> (n' < n)%R)).
Proof. exact @damped_monotone. Qed.
Print Assumptions C32_norms_decrease.

(** Every item, for any numbers: the Newton direction is taken at the point before, and its
    length is halved until the norm is smaller or the point does not move. *)
Theorem C32_steps :
  forall X F M D N A (f : X -> res F) (J : X -> res M) (norm : F -> res N) neg (solve : M -> F -> res D)
    (step : X -> A -> D -> X) xeqb add one half nltb fuel x0 v0 n0 os st,
  f x0 = Ok v0 -> norm v0 = Ok n0 ->
  yields (md_next f J norm neg solve step xeqb add one half nltb fuel) (MNew x0) os st ->
  each_from fst (fun _ => damped_step f norm J neg solve step xeqb add one half nltb) 1 (x0, n0) os.
Proof. exact @damped_steps. Qed.
Print Assumptions C32_steps.

(** The function value reported with a point that is repeated may be that of another point. *)
Theorem C32_stale_value_refuted : exists (f : Z -> res Z) J norm neg solve step xeqb add one half nltb fuel x0 i st,
  yields (md_next (M := unit) (D := Z) (A := Z) (N := Z) f J norm neg solve step xeqb add one half nltb fuel)
    (MNew x0) [i] st /\
  let '(x, n, v) := i in f x <> Ok v.
Proof. exact stale_value. Qed.
Print Assumptions C32_stale_value_refuted.

Example C32_example : exists st,
  yields (md_next (X := Z) (F := Z) (M := Z) (D := Z) (A := Z) (N := Z) (fun x => Ok (16 - x * x)%Z)
    (fun x => Ok (- 2 * x)%Z) (fun v => Ok (Z.abs v)) Z.opp (fun m v => Ok (v / m)%Z)
    (fun x l s => x + l * s / 4)%Z Z.eqb Z.add 4%Z (fun l => l / 2)%Z Z.ltb 10)
    (MNew 1%Z) [(4, 0, 0); (4, 0, 0)]%Z st.
Proof. exact damped_example. Qed.

(** C33 *)
Theorem C33_own_residual :
  forall X F M D N A (f : X -> res F) (J : X -> res M) (norm : F -> res N) neg (solve : M -> F -> res D)
    (step : X -> A -> D -> X) xeqb constraint golden x0 os st,
  yields (cn_next f J norm neg solve step xeqb constraint golden) (CNew x0) os st ->
  Forall (own_residual f norm) os /\
  forall k x n v, nth_error os k = Some (x, n, v) -> 5 <= k -> exists y, constraint y = Ok x.
Proof. exact @constrained_items. Qed.
Print Assumptions C33_own_residual.

(** Every item: a line search along the Newton direction at the point before; the constraint
    from the sixth item on; only the last item may repeat a point. *)
Theorem C33_steps :
  forall X F M D N A (f : X -> res F) (J : X -> res M) (norm : F -> res N) neg (solve : M -> F -> res D)
    (step : X -> A -> D -> X) xeqb constraint golden x0 os st,
  yields (cn_next f J norm neg solve step xeqb constraint golden) (CNew x0) os st ->
  each_from (fun i => fst (fst i)) (constrained_step f norm J neg solve step golden constraint xeqb) 1 x0 os.
Proof. exact @constrained_steps. Qed.
Print Assumptions C33_steps.

(** The generator is exhausted when, and only when, a point was repeated. *)
Theorem C33_end :
  forall X F M D N A (f : X -> res F) (J : X -> res M) (norm : F -> res N) neg (solve : M -> F -> res D)
    (step : X -> A -> D -> X) xeqb constraint golden x0 os o st,
  let next := cn_next f J norm neg solve step xeqb constraint golden in
  yields next (CNew x0) (os ++ [o]) st ->
  (next st = Ok (None, st) <-> xeqb (fst (fst o)) (last (map (fun i => fst (fst i)) os) x0) = true).
Proof. exact @constrained_end. Qed.
Print Assumptions C33_end.

(** A singular Jacobian is reported as ValueError. *)
Theorem C33_singular :
  forall X F M D N A (f : X -> res F) (J : X -> res M) (norm : F -> res N) neg (solve : M -> F -> res D)
    (step : X -> A -> D -> X) xeqb constraint golden n x0 v m,
  f x0 = Ok v -> J x0 = Ok m -> solve m (neg v) = Err ZeroDivisionError ->
  cn_next f J norm neg solve step xeqb constraint golden (CRun n x0) = Err ValueError.
Proof. exact @constrained_singular. Qed.
Print Assumptions C33_singular.

(** With the constraint of the steady-state solver, the coverages are physical from the sixth
    item on. *)
Theorem C33_feasible :
  forall F M D N A (f : list R -> res F) (J : list R -> res M) (norm : F -> res N) neg
    (solve : M -> F -> res D) (step : list R -> A -> D -> list R) xeqb golden s x0 os st,
  prepared s -> (forall site, In site (sites s) -> (0 <= total s site)%R) ->
  (forall x l d, length (step x l d) = length (ads s)) ->
  yields (cn_next f J norm neg solve step xeqb (constrain_coverages s) golden) (CNew x0) os st ->
  forall k x n v, nth_error os k = Some (x, n, v) -> 5 <= k -> feasible s x.
Proof. exact @constrained_coverages_feasible. Qed.
Print Assumptions C33_feasible.

Example C33_example : exists st,
  yields (cn_next (X := Z) (F := Z) (M := unit) (D := Z) (A := Z) (N := Z) (fun x => Ok (100 - x)%Z)
    (fun _ => Ok tt) (fun v => Ok (Z.abs v)) Z.opp (fun _ _ => Ok 3%Z)
    (fun x l s => x + l * s)%Z Z.eqb (fun x => Ok (Z.min x 10)) (fun _ => Ok 1%Z))
    (CNew 0%Z) [(3, 97, 97); (6, 94, 94); (9, 91, 91); (12, 88, 88); (15, 85, 85); (10, 90, 90); (10, 90, 90)]%Z st.
Proof. exact constrained_example. Qed.

(** C61 *)
Theorem C61_differences : forall f m, (forall x, length (f x) = m) ->
  forall x num h (left : bool), (0 < h)%R -> num = L "gmpy" \/ num = L "mpmath" ->
  numerical_jacobian (fun x => Ok (f x)) x num h (side_name left)
  = Ok (map (fun j => let d := signed left (difference_step h x j) in
               map (fun i => (nth i (f (moved x j d)) 0 - nth i (f x) 0) / d)%R (seq 0 m))
            (seq 0 (length x))).
Proof. exact jacobian_differences. Qed.
Print Assumptions C61_differences.

(** The entries approach the partial derivatives, from either side. *)
Theorem C61_converges : forall f m, (forall x, length (f x) = m) ->
  forall x i j slope (left : bool), i < m -> j < length x ->
  derivable_pt_lim (fun t => nth i (f (moved x j t)) 0%R) 0 slope ->
  forall eps, (0 < eps)%R -> exists h0, (0 < h0)%R /\ forall h num, (0 < h < h0)%R ->
    num = L "gmpy" \/ num = L "mpmath" ->
    exists cols col v, numerical_jacobian (fun x => Ok (f x)) x num h (side_name left) = Ok cols /\
      nth_error cols j = Some col /\ nth_error col i = Some v /\ (Rabs (v - slope) < eps)%R.
Proof. exact jacobian_converges. Qed.
Print Assumptions C61_converges.

(** It is exact where the function is linear. *)
Theorem C61_affine : forall f m, (forall x, length (f x) = m) ->
  forall x i j slope (left : bool) h num, i < m -> j < length x -> (0 < h)%R ->
  num = L "gmpy" \/ num = L "mpmath" ->
  (forall t, nth i (f (moved x j t)) 0%R = (nth i (f x) 0 + slope * t)%R) ->
  exists cols col, numerical_jacobian (fun x => Ok (f x)) x num h (side_name left) = Ok cols /\
    nth_error cols j = Some col /\ nth_error col i = Some slope.
Proof. exact jacobian_affine. Qed.
Print Assumptions C61_affine.

Theorem C61_rejects : forall f m, (forall x, length (f x) = m) ->
  forall x h, x <> [] -> m <> 0 ->
  (forall num dir, dir <> L "left" -> dir <> L "right" ->
     numerical_jacobian (fun x => Ok (f x)) x num h dir = Err UnboundLocalError) /\
  (forall num (left : bool), (0 < h)%R -> num <> L "gmpy" -> num <> L "mpmath" ->
     numerical_jacobian (fun x => Ok (f x)) x num h (side_name left) = Err TypeError) /\
  (forall num (left : bool), h = 0%R ->
     numerical_jacobian (fun x => Ok (f x)) x num h (side_name left) = Err ZeroDivisionError).
Proof. exact jacobian_rejects. Qed.
Print Assumptions C61_rejects.

Example C61_example : forall eps, (0 < eps)%R -> exists h0, (0 < h0)%R /\ forall h num, (0 < h < h0)%R ->
  num = L "gmpy" \/ num = L "mpmath" ->
  exists cols col v, numerical_jacobian (fun x => Ok (match x with [a] => w_square x | _ => [0%R] end)) [3%R] num h (side_name false) = Ok cols /\
    nth_error cols 0 = Some col /\ nth_error col 0 = Some v /\ (Rabs (v - 6) < eps)%R.
Proof. exact square_slope. Qed.
